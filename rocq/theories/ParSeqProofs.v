(** Proofs about distributed expressions and programs. *)
From Coq Require Import List Arith ZArith Lia Bool.
From Verif Require Import Base Dist Domain Traversal Map MapProofs ParAssign ParAssignProofs ParSeq.
Import ListNotations.
Local Open Scope nat_scope.

(** ** Pointwise equality of states *)
Section Sem.
Context {V : Type} (eager : nat -> nat -> nat -> bool).
Notation gstate := (gstate V).
Notation pstep := (@pstep V eager).
Notation gsteps := (@gsteps V eager).

Definition meq (m m' : nat -> Z -> V) : Prop := forall v o, m v o = m' v o.
Definition seq_ (s t : gstate) : Prop :=
  (forall r, gprog s r = gprog t r) /\ (forall r, meq (gmem s r) (gmem t r)) /\
  (forall p q, gchan s p q = gchan t p q).

Lemma seq_refl s : seq_ s s.
Proof. repeat split. Qed.
Lemma seq_sym s t : seq_ s t -> seq_ t s.
Proof. intros (A & B & C). repeat split; intros; [|intros v o; symmetry; apply B|]; symmetry; auto. Qed.
Lemma seq_trans s t u : seq_ s t -> seq_ t u -> seq_ s u.
Proof. intros (A & B & C) (A' & B' & C'). repeat split; intros; [rewrite A; auto|intros v o; rewrite B; apply B'|rewrite C; auto]. Qed.

Lemma reval_ext m m' e : meq m m' -> @reval V m e = reval m' e.
Proof. intros E. induction e; cbn; congruence || (try apply E). Qed.
Lemma map_ext_m (m m' : nat -> Z -> V) v l : meq m m' -> map (m v) l = map (m' v) l.
Proof. intros E. apply map_ext. intros; apply E. Qed.
Lemma wrs_ext (l : list (Z * V)) : forall m m', (forall o, m o = m' o) -> forall o, wrs m l o = wrs m' l o.
Proof.
  induction l as [|x l IH]; intros m m' E o; [apply E|]. cbn. apply IH. intros. unfold wr.
  destruct (o0 =? fst x)%Z; auto.
Qed.
Lemma upd_ext (m m' : nat -> Z -> V) v f f' : meq m m' -> (forall o, f o = f' o) -> meq (upd m v f) (upd m' v f').
Proof. intros E F w o. unfold upd. destruct (w =? v); [apply F|apply E]. Qed.
Lemma eval_all_ext dst l : forall m m', meq m m' -> meq (@eval_all V dst l m) (eval_all dst l m').
Proof.
  induction l as [|x l IH]; intros m m' E; [exact E|]. cbn. apply IH. unfold eval_one.
  apply upd_ext; [exact E|]. intros o. unfold wr. cbn. rewrite (reval_ext m m' (snd x) E).
  destruct (o =? fst x)%Z; [reflexivity|apply E].
Qed.

Ltac seqsplit := repeat split; cbn [gprog gmem gchan].
Lemma updp (P : nat -> list (gact V)) P' r k : (forall x, P x = P' x) -> forall x, upd P r k x = upd P' r k x.
Proof. intros E x. unfold upd. destruct (x =? r); auto. Qed.
Lemma updm (M M' : nat -> nat -> Z -> V) r f f' : (forall x, meq (M x) (M' x)) -> meq f f' ->
  forall x, meq (upd M r f x) (upd M' r f' x).
Proof. intros E F x. unfold upd. destruct (x =? r); auto. Qed.
Lemma updc (C C' : nat -> nat -> list (list V)) p q k k' : (forall x y, C x y = C' x y) -> k = k' ->
  forall x y, upd2 C p q k x y = upd2 C' p q k' x y.
Proof. intros E F x y. unfold upd2. destruct ((x =? p) && (y =? q)); auto. Qed.

Lemma pstep_ext r s s' t : seq_ s s' -> pstep r s = Some t -> exists t', pstep r s' = Some t' /\ seq_ t t'.
Proof.
  intros (A & B & C) E. unfold ParSeq.pstep in *. rewrite <- A. destruct (gprog s r) as [|a k] eqn:P; [discriminate|].
  assert (Q := updp _ _ r k A).
  destruct a as [src q offs|src dst from to|dst p offs|q|dst elts|dst offs f].
  - injection E as <-. eexists; split; [reflexivity|]. seqsplit; auto.
    apply updc; [exact C|]. rewrite C, (map_ext_m _ _ _ _ (B r)). reflexivity.
  - injection E as <-. eexists; split; [reflexivity|]. seqsplit; auto.
    apply updm; [exact B|]. apply upd_ext; [apply B|]. intros o. rewrite (map_ext_m _ _ _ _ (B r)).
    apply wrs_ext. intros; apply B.
  - rewrite <- C. destruct (gchan s p r) as [|msg c]; [discriminate|].
    destruct (length msg =? length offs); [|discriminate]. injection E as <-. eexists; split; [reflexivity|]. seqsplit; auto.
    + apply updm; [exact B|]. apply upd_ext; [apply B|]. apply wrs_ext. intros; apply B.
    + apply updc; auto.
  - rewrite <- C. destruct (eager r q (length k) || _); [|discriminate]. injection E as <-. eexists; split; [reflexivity|]. seqsplit; auto.
  - injection E as <-. eexists; split; [reflexivity|]. seqsplit; auto.
    apply updm; [exact B|]. apply eval_all_ext, B.
  - injection E as <-. eexists; split; [reflexivity|]. seqsplit; auto.
    apply updm; [exact B|]. apply upd_ext; [apply B|]. intros o. rewrite (map_ext_m _ _ _ _ (B r)).
    apply wrs_ext. intros; apply B.
Qed.

Lemma gsteps_ext n s t : gsteps n s t -> forall s', seq_ s s' -> exists t', gsteps n s' t' /\ seq_ t t'.
Proof.
  induction 1 as [s|n r s t u E S IH]; intros s' Q.
  - exists s'. split; [constructor|exact Q].
  - destruct (pstep_ext r s s' t Q E) as (t' & E' & Q'). destruct (IH t' Q') as (u' & S' & Q'').
    exists u'. split; [econstructor; eauto|exact Q''].
Qed.

Lemma gsteps_app n s t : gsteps n s t -> forall k u, gsteps k t u -> gsteps (n + k) s u.
Proof. induction 1; intros; cbn; [assumption|]. econstructor; eauto. Qed.

(** ** Steps of different processors commute *)
Lemma upd_same {A} (f : nat -> A) r x : upd f r x r = x.
Proof. unfold upd. rewrite Nat.eqb_refl. reflexivity. Qed.
Lemma upd_other {A} (f : nat -> A) r x j : j <> r -> upd f r x j = f j.
Proof. intros N. unfold upd. apply Nat.eqb_neq in N. rewrite N. reflexivity. Qed.
Lemma upd_comm {A} (f : nat -> A) r r' x y : r <> r' -> forall j, upd (upd f r x) r' y j = upd (upd f r' y) r x j.
Proof.
  intros N j. unfold upd. destruct (Nat.eqb_spec j r'), (Nat.eqb_spec j r); auto. congruence.
Qed.
Lemma upd2_other {A} (f : nat -> nat -> A) i j x a b : (a, b) <> (i, j) -> upd2 f i j x a b = f a b.
Proof.
  intros N. unfold upd2. destruct (Nat.eqb_spec a i), (Nat.eqb_spec b j); cbn; auto. congruence.
Qed.
Lemma upd2_same {A} (f : nat -> nat -> A) i j x : upd2 f i j x i j = x.
Proof. unfold upd2. rewrite !Nat.eqb_refl. reflexivity. Qed.

(** A step as a function of the processor's next action, its storage and
    the channels, with its effect on the channels. *)
Inductive ceff := CNone | CSend (q : nat) (m : list V) | CRecv (p : nat).
Definition capply (r : nat) (e : ceff) (C : nat -> nat -> list (list V)) : nat -> nat -> list (list V) :=
  match e with
  | CNone => C
  | CSend q m => upd2 C r q (C r q ++ [m])
  | CRecv p => upd2 C p r (tl (C p r))
  end.
Definition cok (r : nat) (e : ceff) (C : nat -> nat -> list (list V)) : Prop :=
  match e with CRecv p => C p r <> [] | _ => True end.
Definition lstep (r : nat) (a : gact V) (n : nat) (m : nat -> Z -> V) (C : nat -> nat -> list (list V))
    : option ((nat -> Z -> V) * ceff) :=
  match a with
  | GSend src q offs => Some (m, CSend q (map (m src) offs))
  | GCopy src dst from to => Some (upd m dst (wrs (m dst) (combine to (map (m src) from))), CNone)
  | GRecv dst p offs =>
      match C p r with
      | [] => None
      | msg :: c => assert (length msg =? length offs) ;; Some (upd m dst (wrs (m dst) (combine offs msg)), CRecv p)
      end
  | GWait q => if eager r q n || (match C r q with [] => true | _ => false end) then Some (m, CNone) else None
  | GEval dst elts => Some (eval_all dst elts m, CNone)
  | GWork blk offs f => Some (upd m blk (wrs (m blk) (combine offs (f (map (m blk) offs)))), CNone)
  end.
Definition after (r : nat) (k : list (gact V)) (x : (nat -> Z -> V) * ceff) (s : gstate) : gstate :=
  {| gprog := upd (gprog s) r k; gmem := upd (gmem s) r (fst x); gchan := capply r (snd x) (gchan s) |}.

Lemma upd_id (M : nat -> nat -> Z -> V) r x : meq (M x) (upd M r (M r) x).
Proof. intros v o. unfold upd. destruct (Nat.eqb_spec x r); subst; reflexivity. Qed.

Lemma pstep_l r s : match gprog s r with
  | [] => pstep r s = None
  | a :: k => match lstep r a (length k) (gmem s r) (gchan s) with
              | None => pstep r s = None
              | Some x => exists t, pstep r s = Some t /\ seq_ t (after r k x s)
              end
  end.
Proof.
  unfold ParSeq.pstep. destruct (gprog s r) as [|a k] eqn:P; [reflexivity|].
  destruct a as [src q offs|src dst from to|dst p offs|q|dst elts|dst offs f]; cbn [lstep].
  - eexists; split; [reflexivity|]. unfold after. seqsplit; cbn [fst snd capply]. apply upd_id.
  - eexists; split; [reflexivity|]. unfold after. seqsplit; cbn [fst snd capply].
  - destruct (gchan s p r) as [|msg c] eqn:E; [reflexivity|].
    destruct (length msg =? length offs); [|reflexivity].
    eexists; split; [reflexivity|]. unfold after. seqsplit; cbn [fst snd capply].
    intros x y. rewrite E. reflexivity.
  - destruct (eager r q (length k) || _); [|reflexivity].
    eexists; split; [reflexivity|]. unfold after. seqsplit; cbn [fst snd capply]. apply upd_id.
  - eexists; split; [reflexivity|]. unfold after. seqsplit.
  - eexists; split; [reflexivity|]. unfold after. seqsplit; cbn [fst snd capply].
Qed.
Lemma pstep_l1 r s t : pstep r s = Some t -> exists a k x, gprog s r = a :: k /\
  lstep r a (length k) (gmem s r) (gchan s) = Some x /\ seq_ t (after r k x s).
Proof.
  intros E. pose proof (pstep_l r s) as H. destruct (gprog s r) as [|a k]; [congruence|].
  destruct (lstep _ _ _ _ _) as [x|] eqn:L; [|congruence]. destruct H as (t' & E' & Q).
  exists a, k, x. repeat split; auto; replace t with t' by congruence; apply Q.
Qed.
Lemma pstep_l2 r s a k x : gprog s r = a :: k -> lstep r a (length k) (gmem s r) (gchan s) = Some x ->
  exists t, pstep r s = Some t /\ seq_ t (after r k x s).
Proof. intros P L. pose proof (pstep_l r s) as H. rewrite P, L in H. exact H. Qed.

Lemma lstep_cok r a n m C x : lstep r a n m C = Some x -> cok r (snd x) C.
Proof.
  destruct a as [src q offs|src dst from to|dst p offs|q|dst elts|dst offs f]; cbn [lstep]; intros E; try (injection E as <-; exact I).
  - destruct (C p r) as [|msg c] eqn:H; [discriminate|]. destruct (_ =? _); [|discriminate]. injection E as <-. cbn. congruence.
  - destruct (eager r q n || _); [|discriminate]. injection E as <-. exact I.
Qed.

Lemma lstep_stable r r' a n m C x e : r <> r' -> cok r' e C -> lstep r a n m C = Some x ->
  lstep r a n m (capply r' e C) = Some x.
Proof.
  intros N K. destruct a as [src q offs|src dst from to|dst p offs|q|dst elts|dst offs f]; cbn [lstep]; auto.
  - destruct e as [|q' mm|p']; cbn [capply cok] in *; auto.
    + destruct (C p r) as [|msg c] eqn:E; [discriminate|]. unfold upd2.
      destruct (Nat.eqb_spec p r'), (Nat.eqb_spec r q'); cbn [andb]; rewrite ?E; auto. subst. rewrite E. cbn [app]. auto.
    + rewrite upd2_other by congruence. auto.
  - destruct (eager r q n); cbn [orb]; auto. destruct (C r q) as [|? ?] eqn:E; [|discriminate].
    destruct e as [|q' mm|p']; cbn [capply cok] in *; rewrite ?E; auto.
    + rewrite upd2_other by congruence. rewrite E. auto.
    + rewrite upd2_other by congruence. rewrite E. auto.
Qed.

Lemma capply_comm r r' e e' C : r <> r' -> cok r e C -> cok r' e' C -> forall p q,
  capply r' e' (capply r e C) p q = capply r e (capply r' e' C) p q.
Proof.
  intros N K K' p q. destruct e as [|qa ma|pa], e' as [|qb mb|pb]; cbn [capply cok] in *; auto; unfold upd2.
  - destruct (Nat.eqb_spec p r), (Nat.eqb_spec p r'), (Nat.eqb_spec q qa), (Nat.eqb_spec q qb), (Nat.eqb_spec r r'),
      (Nat.eqb_spec r' r), (Nat.eqb_spec qa qb), (Nat.eqb_spec qb qa); cbn; subst; auto; congruence.
  - destruct (Nat.eqb_spec p r), (Nat.eqb_spec p pb), (Nat.eqb_spec q qa), (Nat.eqb_spec q r'), (Nat.eqb_spec r pb), (Nat.eqb_spec pb r),
      (Nat.eqb_spec qa r'), (Nat.eqb_spec r' qa); cbn; subst; auto; try congruence.
    match goal with |- context [tl (?x ++ _)] => destruct x end; [congruence|reflexivity].
  - destruct (Nat.eqb_spec p r'), (Nat.eqb_spec p pa), (Nat.eqb_spec q qb), (Nat.eqb_spec q r), (Nat.eqb_spec r' pa), (Nat.eqb_spec pa r'),
      (Nat.eqb_spec qb r), (Nat.eqb_spec r qb); cbn; subst; auto; try congruence.
    match goal with |- context [tl (?x ++ _)] => destruct x end; [congruence|reflexivity].
  - destruct (Nat.eqb_spec p pa), (Nat.eqb_spec p pb), (Nat.eqb_spec q r), (Nat.eqb_spec q r'), (Nat.eqb_spec r r'), (Nat.eqb_spec r' r),
      (Nat.eqb_spec pa pb), (Nat.eqb_spec pb pa); cbn; subst; auto; congruence.
Qed.

Lemma diamond r r' s t t' : r <> r' -> pstep r s = Some t -> pstep r' s = Some t' ->
  exists u u', pstep r' t = Some u /\ pstep r t' = Some u' /\ seq_ u u'.
Proof.
  intros N E E'. destruct (pstep_l1 _ _ _ E) as (a & k & x & P & L & Q). destruct (pstep_l1 _ _ _ E') as (a' & k' & x' & P' & L' & Q').
  pose proof (lstep_cok _ _ _ _ _ _ L) as K. pose proof (lstep_cok _ _ _ _ _ _ L') as K'.
  assert (N' : r' <> r) by congruence.
  assert (A : exists u, pstep r' (after r k x s) = Some u /\ seq_ u (after r' k' x' (after r k x s))).
  { apply (pstep_l2 r' (after r k x s) a' k' x').
    - cbn [after gprog]. rewrite upd_other by assumption. exact P'.
    - cbn [after gprog gmem gchan]. rewrite upd_other by assumption. apply lstep_stable; auto. }
  assert (A' : exists u, pstep r (after r' k' x' s) = Some u /\ seq_ u (after r k x (after r' k' x' s))).
  { apply (pstep_l2 r (after r' k' x' s) a k x).
    - cbn [after gprog]. rewrite upd_other by assumption. exact P.
    - cbn [after gprog gmem gchan]. rewrite upd_other by assumption. apply lstep_stable; auto. }
  destruct A as (u & A1 & A2). destruct A' as (u' & A1' & A2').
  destruct (pstep_ext r' _ t u (seq_sym _ _ Q) A1) as (v & B1 & B2).
  destruct (pstep_ext r _ t' u' (seq_sym _ _ Q') A1') as (v' & B1' & B2').
  exists v, v'. split; [exact B1|]. split; [exact B1'|].
  apply (seq_trans _ u); [apply seq_sym, B2|]. apply (seq_trans _ _ _ A2).
  apply (seq_trans _ (after r k x (after r' k' x' s))); [|apply (seq_trans _ u' _ (seq_sym _ _ A2') B2')].
  unfold after. seqsplit.
  - intros j. apply upd_comm, N.
  - intros j v0 o. rewrite (upd_comm _ r r') by exact N. reflexivity.
  - apply capply_comm; auto.
Qed.

(** ** Every schedule ends like one that ends *)
Definition stuck (s : gstate) : Prop := forall r, pstep r s = None.

Lemma stuck_ext s t : seq_ s t -> stuck s -> stuck t.
Proof.
  intros Q S r. destruct (pstep r t) as [t'|] eqn:E; [|reflexivity].
  destruct (pstep_ext r t s t' (seq_sym _ _ Q) E) as (x & X & _). rewrite (S r) in X. discriminate.
Qed.

Lemma one_step n : forall s f, gsteps n s f -> stuck f -> forall r s1, pstep r s = Some s1 ->
  exists m f', n = S m /\ gsteps m s1 f' /\ seq_ f f'.
Proof.
  induction n as [|n IH]; intros s f G F r s1 E.
  - inversion G; subst. rewrite (F r) in E. discriminate.
  - inversion G as [|? r0 ? s0 ? E0 G0]; subst. destruct (Nat.eq_dec r r0) as [->|N].
    + assert (s0 = s1) by congruence. subst. exists n, f. repeat split; auto.
    + destruct (diamond r r0 s s1 s0 N E E0) as (u & u' & A & B & Q).
      destruct (IH s0 f G0 F r u' B) as (m & f' & -> & G1 & Q1).
      destruct (gsteps_ext m u' f' G1 u (seq_sym _ _ Q)) as (f'' & G2 & Q2).
      exists (S m), f''. split; [reflexivity|]. split; [econstructor; eauto|]. exact (seq_trans _ _ _ Q1 Q2).
Qed.

Lemma confluence k : forall s s', gsteps k s s' -> forall N f, gsteps N s f -> stuck f ->
  k <= N /\ exists f', gsteps (N - k) s' f' /\ seq_ f f'.
Proof.
  induction k as [|k IH]; intros s s' G N f G0 F; inversion G as [|? r ? s1 ? E G1]; subst.
  - split; [lia|]. exists f. rewrite Nat.sub_0_r. split; [exact G0|apply seq_refl].
  - destruct (one_step N s f G0 F r s1 E) as (m & f' & -> & G2 & Q).
    destruct (IH s1 s' G1 m f' G2 (stuck_ext _ _ Q F)) as (L & f'' & G3 & Q3).
    split; [lia|]. exists f''. split; [exact G3|exact (seq_trans _ _ _ Q Q3)].
Qed.

(** ** One statement after the other *)
Definition mmeq (M M' : nat -> nat -> Z -> V) : Prop := forall r, meq (M r) (M' r).
Definition quiet (s : gstate) : Prop := forall p q, gchan s p q = [].
Definition execs (P : nat -> list (gact V)) (M M' : nat -> nat -> Z -> V) : Prop :=
  forall s R, (forall r, gprog s r = P r ++ R r) -> mmeq (gmem s) M -> quiet s ->
  exists k t, gsteps k s t /\ (forall r, gprog t r = R r) /\ mmeq (gmem t) M' /\ quiet t.

Lemma execs_app P P' M M' M'' : execs P M M' -> execs P' M' M'' -> execs (fun r => P r ++ P' r) M M''.
Proof.
  intros A B s R Hp Hm Hc. 
  destruct (A s (fun r => P' r ++ R r)) as (k & t & G & X1 & X2 & X3); auto.
  { intros r. rewrite Hp, app_assoc. reflexivity. }
  destruct (B t R) as (k' & u & G' & Y1 & Y2 & Y3); auto.
  exists (k + k'), u. split; [exact (gsteps_app _ _ _ G _ _ G')|auto].
Qed.
Lemma execs_nil P M : (forall r, P r = []) -> execs P M M.
Proof.
  intros N s R Hp Hm Hc. exists 0, s. split; [constructor|]. split; [|auto]. intros r. rewrite Hp, N. reflexivity.
Qed.
Lemma execs_ext P P' M M' : (forall r, P r = P' r) -> execs P M M' -> execs P' M M'.
Proof. intros E A s R Hp. apply (A s R). intros r. rewrite E. apply Hp. Qed.

(** Local evaluations. *)
Definition lrun (l : list (gact V)) (m : nat -> Z -> V) : nat -> Z -> V :=
  fold_left (fun m a => match a with GEval d es => eval_all d es m | GWork d os f => upd m d (wrs (m d) (combine os (f (map (m d) os)))) | _ => m end) l m.
Definition is_eval (a : gact V) : Prop := match a with GEval _ _ | GWork _ _ _ => True | _ => False end.

Lemma lrun_ext l : forall m m', meq m m' -> meq (lrun l m) (lrun l m').
Proof.
  induction l as [|a l IH]; intros m m' E; [exact E|]. cbn. apply IH. destruct a; auto; [apply eval_all_ext, E|]. apply upd_ext; [exact E|]. intros o. rewrite (map_ext_m _ _ _ _ E). apply wrs_ext. intros; apply E.
Qed.

Lemma one_proc r l : Forall is_eval l -> forall s R, gprog s r = l ++ R ->
  exists k t, gsteps k s t /\ seq_ t {| gprog := upd (gprog s) r R; gmem := upd (gmem s) r (lrun l (gmem s r)); gchan := gchan s |}.
Proof.
  induction 1 as [|a l Ha Hl IH]; intros s R P.
  - exists 0, s. split; [constructor|]. seqsplit.
    + intros x. unfold upd. destruct (Nat.eqb_spec x r); subst; auto.
    + cbn. apply upd_id.
  - set (m1 := lrun [a] (gmem s r)).
    set (s1 := {| gprog := upd (gprog s) r (l ++ R); gmem := upd (gmem s) r m1; gchan := gchan s |}).
    assert (E : pstep r s = Some s1) by (unfold ParSeq.pstep; rewrite P; destruct a; try contradiction Ha; reflexivity).
    destruct (IH s1 R) as (k & t & G & Q). { subst s1. cbn. apply upd_same. }
    exists (S k), t. split; [econstructor; eauto|]. apply (seq_trans _ _ _ Q). subst s1 m1. seqsplit.
    + intros x. unfold upd. destruct (x =? r); reflexivity.
    + intros x. rewrite upd_same. intros v o. unfold upd. destruct (x =? r); reflexivity.
Qed.

Lemma execs_local n P M : (forall r, Forall is_eval (P r)) -> (forall r, n <= r -> P r = []) ->
  execs P M (fun r => lrun (P r) (M r)).
Proof.
  revert P M. induction n as [|n IH]; intros P M E Z.
  - intros s R Hp Hm Hc. exists 0, s. split; [constructor|]. split; [intros r; rewrite Hp, (Z r) by lia; reflexivity|].
    split; [|exact Hc]. intros r. rewrite (Z r) by lia. apply Hm.
  - intros s R Hp Hm Hc. destruct (one_proc n (P n) (E n) s (R n) (Hp n)) as (k & t & G & Q1 & Q2 & Q3).
    cbn [gprog gmem gchan] in *.
    set (P' := fun r => if r =? n then [] else P r).
    destruct (IH P' (fun r => if r =? n then lrun (P n) (M n) else M r)) with (s := t) (R := R) as (k' & u & G' & X1 & X2 & X3).
    + intros r. unfold P'. destruct (r =? n); [constructor|apply E].
    + intros r Hr. unfold P'. destruct (Nat.eqb_spec r n); [reflexivity|]. apply Z. lia.
    + intros r. rewrite Q1. unfold upd, P'. destruct (Nat.eqb_spec r n); subst; [reflexivity|apply Hp].
    + intros r v o. rewrite (Q2 r v o). unfold upd. destruct (Nat.eqb_spec r n); subst; [apply lrun_ext, Hm|apply Hm].
    + intros p q. rewrite Q3. apply Hc.
    + exists (k + k'), u. split; [exact (gsteps_app _ _ _ G _ _ G')|]. split; [exact X1|]. split; [|exact X3].
      intros r v o. rewrite (X2 r v o). unfold P'. destruct (Nat.eqb_spec r n); subst; reflexivity.
Qed.

(** A chained assignment. *)
Definition grel (src dst : nat) (rmem : nat -> Z -> V) (M : nat -> nat -> Z -> V) (R : nat -> list (gact V))
    (s : state V) (g : gstate) : Prop :=
  (forall r, gprog g r = map (tag src dst) (prog s r) ++ R r) /\
  (forall r o, gmem g r dst o = lmem s r o) /\ (forall r v o, v <> dst -> gmem g r v o = M r v o) /\
  (forall r o, M r src o = rmem r o) /\ (forall p q, gchan g p q = chan s p q).

Lemma sim_step src dst rmem M R s t g : src <> dst -> grel src dst rmem M R s g -> step rmem s t ->
  exists r g', pstep r g = Some g' /\ grel src dst rmem M R t g'.
Proof.
  intros N (A & B & C & D & E) S.
  assert (RS : forall r offs, map (gmem g r src) offs = map (rmem r) offs).
  { intros r offs. apply map_ext. intros o. rewrite C, D by assumption. reflexivity. }
  inversion S as [r q offs k s' P|r from to k s' P|r p offs k m c s' P Q L|r q k s' P Q]; subst; exists r; unfold ParSeq.pstep;
    rewrite (A r), P; cbn [map tag app].
  - eexists; split; [reflexivity|]. split; [|split; [|split; [|split]]]; cbn [gprog gmem gchan prog lmem chan]; auto.
    + intros x. unfold upd. destruct (Nat.eqb_spec x r); subst; auto.
    + rewrite RS, E. apply updc; auto.
  - eexists; split; [reflexivity|]. split; [|split; [|split; [|split]]]; cbn [gprog gmem gchan prog lmem chan]; auto.
    + intros x. unfold upd. destruct (Nat.eqb_spec x r); subst; auto.
    + intros x o. unfold upd. destruct (Nat.eqb_spec x r); [subst x|apply B]. rewrite Nat.eqb_refl, RS. apply wrs_ext. intros; apply B.
    + intros x v o Hv. unfold upd. destruct (Nat.eqb_spec x r); [|apply C, Hv]. subst x. destruct (Nat.eqb_spec v dst); [congruence|apply C, Hv].
  - rewrite E, Q. apply Nat.eqb_eq in L. rewrite L. eexists; split; [reflexivity|].
    split; [|split; [|split; [|split]]]; cbn [gprog gmem gchan prog lmem chan]; auto.
    + intros x. unfold upd. destruct (Nat.eqb_spec x r); subst; auto.
    + intros x o. unfold upd. destruct (Nat.eqb_spec x r); [subst x|apply B]. rewrite Nat.eqb_refl. apply wrs_ext. intros; apply B.
    + intros x v o Hv. unfold upd. destruct (Nat.eqb_spec x r); [|apply C, Hv]. subst x. destruct (Nat.eqb_spec v dst); [congruence|apply C, Hv].
    + apply updc; auto.
  - rewrite E, Q, orb_true_r. eexists; split; [reflexivity|].
    split; [|split; [|split; [|split]]]; cbn [gprog gmem gchan prog lmem chan]; auto.
    intros x. unfold upd. destruct (Nat.eqb_spec x r); subst; auto.
Qed.

Lemma sim_steps src dst rmem M R n s t : src <> dst -> steps rmem n s t -> forall g, grel src dst rmem M R s g ->
  exists g', gsteps n g g' /\ grel src dst rmem M R t g'.
Proof.
  intros N. induction 1 as [s|n s t u S IH H]; intros g Q.
  - exists g. split; [constructor|exact Q].
  - destruct (IH g Q) as (g1 & G & Q1). destruct (sim_step _ _ _ _ _ _ _ _ N Q1 H) as (r & g2 & E & Q2).
    exists g2. split; [|exact Q2]. replace (Datatypes.S n) with (n + 1) by lia.
    apply (gsteps_app _ _ _ G). econstructor; [exact E|constructor].
Qed.

Lemma run_to_end rmem (s0 : state V) (Z : state V -> Prop) N :
  (forall n s, steps rmem n s0 s -> n <= N /\ ((exists t, step rmem s t) \/ Z s)) ->
  exists n s, steps rmem n s0 s /\ Z s.
Proof.
  intros H. assert (A : forall d n s, steps rmem n s0 s -> N - n = d -> exists n s, steps rmem n s0 s /\ Z s).
  { induction d as [|d IH]; intros n s S E; destruct (H n s S) as (L & [(t & T)|Q]); eauto.
    - pose proof (steps_S rmem n s0 s t S T) as S'. destruct (H _ _ S'). lia.
    - apply (IH (Datatypes.S n) t); [econstructor; eauto|lia]. }
  apply (A N 0 s0); [constructor|lia].
Qed.
End Sem.

(** ** Block-vector assignment is the chained one *)
Definition plain (d : dist) : bool := match d with Cyclic _ _ => false | _ => true end.

Lemma plain_np m sb : map_ok m -> Forall (fun d => plain (fst d) = true) m -> sb < map_num_subblocks m ->
  map_num_patches m sb = Some 1.
Proof.
  intros K F L. destruct (mp_patches m (map_partitioned_lemma m K) sb L) as (k & E & _). rewrite E. f_equal.
  unfold map_num_patches in E. destruct (sb <? map_num_subblocks m); [|discriminate]. cbn [bind] in E.
  destruct (split_tuple sb (subblocks m)) as [sbs|]; [|discriminate]. cbn [bind] in E.
  destruct (patch_counts m sbs) as [ks|] eqn:C; [|discriminate]. cbn [bind] in E. injection E as <-.
  clear K L. revert sbs ks C. induction F as [|[d n] m P F IH]; intros sbs ks C.
  - destruct sbs; [|discriminate]. injection C as <-. reflexivity.
  - destruct sbs as [|s sbs]; [discriminate|]. unfold patch_counts in C. cbn [omap2] in C. fold (patch_counts m sbs) in C.
    cbn [fst snd] in *. destruct (subblock_patches d n s) as [k|] eqn:S; [|discriminate]. cbn [bind] in C.
    destruct (patch_counts m sbs) as [ks'|] eqn:C'; [|discriminate]. cbn [bind] in C. injection C as <-.
    cbn [prod fold_right]. fold (prod ks'). rewrite (IH _ _ C').
    destruct d as [|b|b c]; [| |discriminate P]; cbn in S; destruct (_ : bool) in S; try discriminate S; injection S as <-; reflexivity.
Qed.

Lemma collectL_map {A B C} (h : B -> C) (l : list A) f g :
  (forall x, In x l -> f x = option_map (map h) (g x)) -> collectL l f = option_map (map h) (collectL l g).
Proof.
  induction l as [|x l IH]; intros E; [reflexivity|]. cbn [collectL]. rewrite (E x) by (left; reflexivity).
  destruct (g x) as [a|]; [|reflexivity]. cbn [option_map bind]. rewrite IH by (intros; apply E; right; assumption).
  destruct (collectL l g); [|reflexivity]. cbn [option_map bind]. rewrite map_app. reflexivity.
Qed.

Section Bv.
Variables lhs rhs : amap.
Hypothesis Hl : amap_ok lhs.
Hypothesis Hr : amap_ok rhs.
Hypothesis HE : a_ext lhs = a_ext rhs.

Lemma one_ok a sb : amap_ok a -> is_block_dist a = true -> sb < map_num_subblocks (a_dims a) ->
  exists n g l, a_ext a = [n] /\ (Z.of_nat n < H64)%Z /\ a_num_patches a sb = Some 1 /\
  a_gdom a sb 0 = Some [g] /\ a_ldom a sb 0 = Some [l] /\ one_patch a sb = Some (zd g, zd l) /\
  bx g n /\ snd l = snd g /\ fst l + snd l <= n.
Proof.
  intros Ha B L.
  assert (D : exists d n, a_dims a = [(d, n)] /\ plain d = true).
  { unfold is_block_dist in B. destruct (a_dims a) as [|[d n] [|]]; try discriminate; [|destruct d; discriminate].
    exists d, n. split; [reflexivity|]. destruct d; auto. }
  destruct D as (d & n & D & P).
  assert (N : a_num_patches a sb = Some 1).
  { rewrite (a_np a Ha). apply plain_np; [apply (ok_dims a Ha)| |exact L]. rewrite D. constructor; auto. }
  destruct (patches_exist a Ha sb L) as (k & N' & G & _). rewrite N in N'. injection N' as <-.
  destruct (G 0) as (gd & E); [lia|]. destruct (patch_facts a Ha sb 0 gd E) as (ld & E' & S & X1 & X2 & _).
  assert (Ex : a_ext a = [n]) by (unfold a_ext, ext_of; rewrite D; reflexivity).
  rewrite Ex in X1, X2. inversion X1 as [|g ? gt ? G1 G2]; subst. inversion G2; subst.
  inversion X2 as [|l ? lt ? L1 L2]; subst. inversion L2; subst. cbn in S. injection S as S.
  exists n, g, l. repeat split; auto.
  - pose proof (ok_size a Ha) as Z. rewrite D in Z. inversion Z; subst. assumption.
  - unfold one_patch. rewrite N, E, E'. reflexivity.
  - apply G1.
  - apply G1.
Qed.

Hypothesis BV : is_blkvec lhs rhs = true.
Lemma bvl : is_block_dist lhs = true.
Proof. unfold is_blkvec in BV. apply andb_prop in BV. apply BV. Qed.
Lemma bvr : is_block_dist rhs = true.
Proof. unfold is_blkvec in BV. apply andb_prop in BV. apply BV. Qed.

Lemma part_zd l g i : snd l = snd g -> sub1 i g -> part (zd l) (zd g) (zd i) = zd (shift1 l g i).
Proof. intros S [A B]. unfold part, zd, shift1. cbn [dfirst dlen fst snd]. f_equal. lia. Qed.
Lemma chain_cells x a : chain_add [0] (zdom [x]) [a] = Some [cells (zd x) a].
Proof.
  unfold cells, chain_add, zdom, ddim, zdim. cbn [map nth dfirst dstride dlen fst snd zd Nat.eqb]. rewrite Z.mul_1_l. reflexivity.
Qed.
Lemma chain_cells2 x a : chain_add [0] [zd x] [a] = Some [cells (zd x) a].
Proof. apply chain_cells. Qed.

Definition cl (a : Z) (m : nat * dom) : nat * list Z := (fst m, cells (snd m) a).

Lemma bv_send a rank : build_send_list [0] lhs rhs [a] rank = option_map (map (cl a)) (bv_send_list lhs rhs rank).
Proof.
  unfold build_send_list, bv_send_list. destruct (a_subblock rhs rank) as [rsb|] eqn:S; [|reflexivity].
  pose proof (a_valid rhs Hr _ _ S) as Lr. destruct (a_procs rhs Hr rsb Lr) as (ps & f & _ & -> & _). cbn [bind].
  destruct (f =? rank); [|reflexivity].
  destruct (one_ok rhs rsb Hr bvr Lr) as (n & rg & rl & X1 & X2 & X3 & X4 & X5 & -> & X7 & X8 & X9). cbn [bind].
  apply collectL_map. intros proc _. destruct (proc =? rank); [reflexivity|].
  destruct (a_subblock lhs proc) as [lsb|] eqn:T; [|reflexivity].
  pose proof (a_valid lhs Hl _ _ T) as Ll. destruct (processor_has_block rhs proc rsb) as [[|]|]; try reflexivity. cbn [bind].
  destruct (one_ok lhs lsb Hl bvl Ll) as (n' & lg & ll & Y1 & Y2 & Y3 & Y4 & Y5 & -> & Y7 & Y8 & Y9). cbn [bind fst snd].
  assert (n' = n) by congruence. subst n'.
  unfold send_chain. rewrite Y3. cbn [bind collect]. rewrite Y4, X3. cbn [bind collect]. rewrite X4, X5. cbn [bind].
  change (intersectD (zdom [rg]) (zdom [lg])) with
    (r <- intersect (zd rg) (zd lg) ;; match r with None => Some None | Some c => Some (Some [c]) end).
  rewrite (isect1 rg lg n) by assumption. cbn [bind]. destruct (ibox1 rg lg) as [i|] eqn:I; cbn [option_map]; [|reflexivity].
  destruct (ibox1_sub _ _ _ _ X7 Y7 I) as (Q & _). cbn [bind].
  change (apply_intrD (zdom [rl]) (zdom [rg]) [zd i]) with (d <- apply_intr (zd rl) (zd rg) (zd i) ;; Some [d]).
  rewrite (app1 rl rg i n) by assumption. cbn [bind]. rewrite chain_cells2. cbn [bind app message concat].
  rewrite (part_zd rl rg i) by assumption. rewrite app_nil_r. reflexivity.
Qed.

Lemma bv_recv a rank : build_recv_list [0] lhs rhs [a] rank = option_map (map (cl a)) (bv_recv_list lhs rhs rank).
Proof.
  unfold build_recv_list, bv_recv_list. destruct (a_subblock lhs rank) as [lsb|] eqn:T; [|reflexivity].
  pose proof (a_valid lhs Hl _ _ T) as Ll.
  destruct (one_ok lhs lsb Hl bvl Ll) as (n' & lg & ll & Y1 & Y2 & Y3 & Y4 & Y5 & -> & Y7 & Y8 & Y9). cbn [bind fst snd].
  apply collectL_map. intros proc _. destruct (proc =? rank); [reflexivity|].
  destruct (a_subblock rhs proc) as [rsb|] eqn:S; [|reflexivity].
  pose proof (a_valid rhs Hr _ _ S) as Lr. destruct (a_procs rhs Hr rsb Lr) as (ps & f & _ & -> & _). cbn [bind].
  destruct (f =? proc); [|reflexivity].
  destruct (processor_has_block rhs rank rsb) as [[|]|]; try reflexivity. cbn [bind].
  destruct (one_ok rhs rsb Hr bvr Lr) as (n & rg & rl & X1 & X2 & X3 & X4 & X5 & -> & X7 & X8 & X9). cbn [bind].
  assert (n' = n) by congruence. subst n'.
  unfold recv_chain. rewrite Y3. cbn [bind collect]. rewrite Y4, Y5, X3. cbn [bind collect]. rewrite X4. cbn [bind fst].
  change (intersectD (zdom [lg]) (zdom [rg])) with
    (r <- intersect (zd lg) (zd rg) ;; match r with None => Some None | Some c => Some (Some [c]) end).
  rewrite (isect1 lg rg n) by assumption. cbn [bind]. destruct (ibox1 lg rg) as [i|] eqn:I; cbn [option_map]; [|reflexivity].
  destruct (ibox1_sub _ _ _ _ Y7 X7 I) as (Q & _). cbn [bind].
  change (apply_intrD (zdom [ll]) (zdom [lg]) [zd i]) with (d <- apply_intr (zd ll) (zd lg) (zd i) ;; Some [d]).
  rewrite (app1 ll lg i n) by assumption. cbn [bind]. rewrite chain_cells2. cbn [bind app message concat].
  rewrite (part_zd ll lg i) by assumption. rewrite app_nil_r. reflexivity.
Qed.

Lemma bv_copy a b rank : exists c, bv_copy_list lhs rhs rank = Some c /\
  (x <- build_copy_list lhs rhs rank ;; collectL x (copy_action [0] [a] [b])) =
  Some (map (fun m => ACopy (cells (fst m) a) (cells (snd m) b)) c).
Proof.
  unfold build_copy_list, bv_copy_list. destruct (a_subblock lhs rank) as [lsb|] eqn:T; [|eexists; split; reflexivity].
  destruct (a_subblock rhs rank) as [rsb|] eqn:S; [|eexists; split; reflexivity].
  pose proof (a_valid lhs Hl _ _ T) as Ll. pose proof (a_valid rhs Hr _ _ S) as Lr.
  destruct (one_ok lhs lsb Hl bvl Ll) as (n' & lg & ll & Y1 & Y2 & Y3 & Y4 & Y5 & -> & Y7 & Y8 & Y9).
  destruct (one_ok rhs rsb Hr bvr Lr) as (n & rg & rl & X1 & X2 & X3 & X4 & X5 & -> & X7 & X8 & X9). cbn [bind fst snd].
  assert (n' = n) by congruence. subst n'.
  unfold copy_records. rewrite Y3. cbn [bind collect]. rewrite Y4, Y5, X3. cbn [bind collect]. rewrite X4, X5. cbn [bind].
  change (intersectD (zdom [rg]) (zdom [lg])) with
    (r <- intersect (zd rg) (zd lg) ;; match r with None => Some None | Some c => Some (Some [c]) end).
  rewrite (isect1 rg lg n) by assumption. cbn [bind]. destruct (ibox1 rg lg) as [i|] eqn:I; cbn [option_map]; [|eexists; split; reflexivity].
  destruct (ibox1_sub _ _ _ _ X7 Y7 I) as (Q & Q' & _). cbn [bind].
  change (apply_intrD (zdom [rl]) (zdom [rg]) [zd i]) with (d <- apply_intr (zd rl) (zd rg) (zd i) ;; Some [d]).
  change (apply_intrD (zdom [ll]) (zdom [lg]) [zd i]) with (d <- apply_intr (zd ll) (zd lg) (zd i) ;; Some [d]).
  rewrite (app1 rl rg i n), (app1 ll lg i n) by assumption. cbn [bind app collectL].
  rewrite (part_zd rl rg i), (part_zd ll lg i) by assumption. eexists; split; [reflexivity|].
  unfold copy_action. cbn [fst snd]. rewrite !chain_cells2. cbn [bind app concat map fst snd]. rewrite !app_nil_r. reflexivity.
Qed.
End Bv.

Lemma collectL_none {A B} (l : list A) (f : A -> option (list B)) x : In x l -> f x = None -> collectL l f = None.
Proof.
  induction l as [|y l IH]; intros I E; [destruct I|]. cbn. destruct I as [->|I].
  - rewrite E. reflexivity.
  - destruct (f y); [|reflexivity]. cbn. rewrite (IH I E). reflexivity.
Qed.

Lemma bv_chain {V} (D : nat -> var) buf src dst r a : amap_ok (v_map (D dst)) -> amap_ok (v_map (D src)) ->
  a_ext (v_map (D dst)) = a_ext (v_map (D src)) -> is_blkvec (v_map (D dst)) (v_map (D src)) = true ->
  v_st (D src) r = [a] -> v_st (D dst) r = [1%Z] ->
  @bv_program V D buf src dst r =
  (p <- program [0] (v_map (D dst)) (v_map (D src)) (v_st (D src) r) (v_st (D dst) r) r ;; Some (map (tag src dst) p)).
Proof.
  intros Hl Hr HE BV Sa Sb. unfold bv_program, program. rewrite Sa, Sb. cbn [zdim nth].
  rewrite (bv_send _ _ Hl Hr HE BV), (bv_recv _ _ Hl Hr HE BV).
  destruct (bv_copy _ _ Hl Hr HE BV a 1 r) as (c & Ec & Ecs). rewrite Ec.
  destruct (bv_send_list (v_map (D dst)) (v_map (D src)) r) as [s|]; [|reflexivity]. cbn [option_map bind].
  destruct (build_copy_list (v_map (D dst)) (v_map (D src)) r) as [c'|]; [|discriminate]. cbn [bind] in *.
  rewrite Ecs. cbn [bind]. destruct (bv_recv_list (v_map (D dst)) (v_map (D src)) r) as [v|]; [|reflexivity]. cbn [option_map bind].
  f_equal. rewrite !map_app, !map_map. cbn [tag]. rewrite Z.eqb_refl. reflexivity.
Qed.

(** ** One assignment *)
Lemma no_sub n a r : amap_ok a -> Forall (fun p => p < n) (a_pvec a) -> n <= r -> a_subblock a r = None.
Proof.
  intros Ha F L. destruct (a_subblock a r) as [sb|] eqn:E; [|reflexivity]. exfalso.
  assert (I : In r (a_pvec a)) by (apply (a_sub_iff a Ha); eauto). rewrite Forall_forall in F. apply F in I. lia.
Qed.
Lemma program_idle o lhs rhs rst lst r : a_subblock lhs r = None -> a_subblock rhs r = None ->
  program o lhs rhs rst lst r = Some [].
Proof. intros A B. unfold program, build_send_list, build_copy_list, build_recv_list. rewrite A, B. reflexivity. Qed.

Section Assign.
Context {V : Type} (eager : nat -> nat -> nat -> bool) (n : nat) (D : nat -> var) (O : nat -> list nat) (buf : nat).

Lemma assign_eq src dst : var_ok n (O src) (D src) -> var_ok n (O dst) (D dst) ->
  a_ext (v_map (D src)) = a_ext (v_map (D dst)) ->
  (is_blkvec (v_map (D dst)) (v_map (D src)) = true -> unit_stride (D dst)) ->
  exists o, order_valid (length (a_dims (v_map (D dst)))) o = true /\ forall r,
  @assign_program V D O buf src dst r =
  (p <- program o (v_map (D dst)) (v_map (D src)) (v_st (D src) r) (v_st (D dst) r) r ;; Some (map (tag src dst) p)).
Proof.
  intros Hs Hd HE BV. unfold assign_program. destruct (is_blkvec _ _) eqn:B.
  - assert (L : length (a_dims (v_map (D dst))) = 1).
    { unfold is_blkvec, is_block_dist in B. destruct (a_dims (v_map (D dst))) as [|[[|?|? ?] ?] [|]]; try discriminate; reflexivity. }
    assert (L' : length (a_dims (v_map (D src))) = 1).
    { pose proof (f_equal (@length nat) HE) as X. unfold a_ext, ext_of in X. rewrite !map_length in X. congruence. }
    exists [0]. split; [rewrite L; reflexivity|]. intros r.
    pose proof (vo_st _ _ _ Hs r) as S. rewrite L' in S. destruct (v_st (D src) r) as [|a [|]] eqn:E; try discriminate S.
    rewrite (bv_chain D buf src dst r a (vo_map _ _ _ Hd) (vo_map _ _ _ Hs) (eq_sym HE) B E (BV eq_refl L r)). rewrite E. reflexivity.
  - exists (O dst). split; [apply Hd|]. reflexivity.
Qed.

Lemma assign_exec src dst M X : src <> dst -> var_ok n (O src) (D src) -> var_ok n (O dst) (D dst) ->
  a_ext (v_map (D src)) = a_ext (v_map (D dst)) ->
  (is_blkvec (v_map (D dst)) (v_map (D src)) = true -> unit_stride (D dst)) ->
  (forall r, holds (v_map (D src)) (v_st (D src)) (fun r => M r src) X r) ->
  exists P M', (forall r, @assign_program V D O buf src dst r = Some (P r)) /\ (forall r, n <= r -> P r = []) /\
    execs eager P M M' /\ (forall r v o, v <> dst -> M' r v o = M r v o) /\
    (forall r, holds (v_map (D dst)) (v_st (D dst)) (fun r => M' r dst) X r) /\
    (forall r o, (forall g, ~ element_at (v_map (D dst)) (v_st (D dst)) r o g) -> M' r dst o = M r dst o).
Proof.
  intros N Hs Hd HE BV HR. destruct (assign_eq src dst Hs Hd HE BV) as (o & Ho & EQ).
  assert (Ld : length (a_dims (v_map (D src))) = length (a_dims (v_map (D dst)))).
  { pose proof (f_equal (@length nat) HE) as Y. unfold a_ext, ext_of in Y. rewrite !map_length in Y. exact Y. }
  destruct (assign_lemma o (v_map (D dst)) (v_map (D src)) (v_st (D src)) (v_st (D dst)) Ho (vo_map _ _ _ Hd) (vo_map _ _ _ Hs)
    (eq_sym HE)) with (rmem := fun r => M r src) (lmem0 := fun r => M r dst) (X := X) as (P & K & EP & RUN).
  { intros r. rewrite (vo_st _ _ _ Hs r). exact Ld. }
  { apply (vo_st _ _ _ Hd). }
  { apply (vo_cell _ _ _ Hd). }
  { exact HR. }
  destruct (run_to_end eager (fun r => M r src) {| prog := P; lmem := fun r => M r dst; chan := fun _ _ => [] |}
    (fun s => (forall r o, (forall g, ~ element_at (v_map (D dst)) (v_st (D dst)) r o g) -> lmem s r o = M r dst o) /\
              (forall r, prog s r = []) /\ (forall p q, chan s p q = []) /\
              forall r, holds (v_map (D dst)) (v_st (D dst)) (lmem s) X r) K) as (k & s & S & F & PN & CN & H).
  { intros k s S. destruct (RUN k s S) as (A & B & C). split; [exact A|]. destruct C as [C|C]; [left; exact C|right; split; [exact B|exact C]]. }
  exists (fun r => map (tag src dst) (P r)), (fun r v => if v =? dst then lmem s r else M r v).
  split; [intros r; rewrite EQ, EP; reflexivity|]. split.
  { intros r L. assert (E : Some (P r) = Some []).
    { rewrite <- EP. apply program_idle; apply (no_sub n); auto; try apply Hd; apply Hs. }
    injection E as ->. reflexivity. }
  split; [|split; [|split]].
  - intros g R Hp Hm Hc. 
    assert (G0 : grel src dst (fun r => M r src) M R {| prog := P; lmem := fun r => M r dst; chan := fun _ _ => [] |} g).
    { split; [exact Hp|]. split; [intros; apply Hm|]. split; [intros; apply Hm|]. split; [reflexivity|exact Hc]. }
    destruct (sim_steps eager src dst _ M R k _ s N S g G0) as (g' & G & (A1 & A2 & A3 & A4 & A5)).
    exists k, g'. split; [exact G|]. split; [intros r; rewrite A1, PN; reflexivity|]. split.
    + intros r v x. destruct (Nat.eqb_spec v dst); subst; [apply A2|apply A3; assumption].
    + intros p q. rewrite A5. apply CN.
  - intros r v x Nv. apply Nat.eqb_neq in Nv. rewrite Nv. reflexivity.
  - intros r sb ext l g E1 E2 E3 E4. rewrite Nat.eqb_refl. exact (H r sb ext l g E1 E2 E3 E4).
  - intros r x Hx. rewrite Nat.eqb_refl. apply F, Hx.
Qed.
End Assign.

(** ** Local evaluation *)
Section Eval.
Context {V : Type}.
Fixpoint reads (e : rexpr V) : list (nat * Z) :=
  match e with
  | RRead v o => [(v, o)]
  | RConst _ => []
  | RUn _ a => reads a
  | RBin _ a b => reads a ++ reads b
  | RTern _ a b c => reads a ++ reads b ++ reads c
  end.
Lemma reval_agree m m' (e : rexpr V) : (forall v o, In (v, o) (reads e) -> m v o = m' v o) -> reval m e = reval m' e.
Proof.
  induction e; cbn; intros H; auto.
  - rewrite IHe by auto. reflexivity.
  - rewrite IHe1, IHe2 by (intros; apply H, in_or_app; auto). reflexivity.
  - rewrite IHe1, IHe2, IHe3; [reflexivity|..]; intros; apply H; rewrite !in_app_iff; auto.
Qed.
Lemma one_dst dst m (x : Z * rexpr V) o : eval_one dst m x dst o = if (o =? fst x)%Z then reval m (snd x) else m dst o.
Proof. unfold eval_one. rewrite upd_same. reflexivity. Qed.
Lemma one_other dst m (x : Z * rexpr V) v o : v <> dst -> eval_one dst m x v o = m v o.
Proof. intros N. unfold eval_one. rewrite upd_other by exact N. reflexivity. Qed.
Lemma eval_other dst (l : list (Z * rexpr V)) : forall m v o, v <> dst -> eval_all dst l m v o = m v o.
Proof.
  induction l as [|x l IH]; intros m v o N; [reflexivity|]. cbn. fold (eval_all dst l (eval_one dst m x)).
  rewrite IH by exact N. apply one_other, N.
Qed.
Lemma eval_outside dst (l : list (Z * rexpr V)) : forall m o, ~ In o (map fst l) -> eval_all dst l m dst o = m dst o.
Proof.
  induction l as [|x l IH]; intros m o N; [reflexivity|]. cbn. fold (eval_all dst l (eval_one dst m x)).
  cbn in N. rewrite IH by tauto. rewrite one_dst. destruct (Z.eqb_spec o (fst x)); [|reflexivity]. subst. tauto.
Qed.
(** Elements that read of the destination only what they overwrite. *)
Lemma eval_self dst (l : list (Z * rexpr V)) : forall m, NoDup (map fst l) ->
  (forall o x v o', In (o, x) l -> In (v, o') (reads x) -> v = dst -> o' = o) ->
  forall o x, In (o, x) l -> eval_all dst l m dst o = reval m x.
Proof.
  induction l as [|[o1 x1] l IH]; intros m N R o x I; [destruct I|]. cbn. fold (eval_all dst l (eval_one dst m (o1, x1))).
  cbn in N. inversion N as [|? ? N1 N2]; subst. destruct I as [E|I].
  - injection E as -> ->. rewrite eval_outside by exact N1. rewrite one_dst. cbn [fst snd]. rewrite Z.eqb_refl. reflexivity.
  - rewrite (IH (eval_one dst m (o1, x1)) N2) with (x := x); [|intros oo xx v o' A B C; eapply R; [right; exact A|exact B|exact C]|exact I].
    apply reval_agree. intros v o' Hr. destruct (Nat.eq_dec v dst) as [->|Nv]; [|apply one_other, Nv].
    assert (o' = o) by (eapply R; [right; exact I|exact Hr|reflexivity]). subst o'.
    rewrite one_dst. cbn [fst snd]. destruct (Z.eqb_spec o o1); [|reflexivity]. subst. exfalso. apply N1.
    apply in_map_iff. exists (o1, x). auto.
Qed.
(** Elements that do not read the destination. *)
Lemma eval_noread dst (l : list (Z * rexpr V)) : forall m,
  (forall o x v o', In (o, x) l -> In (v, o') (reads x) -> v <> dst) ->
  (forall o x x', In (o, x) l -> In (o, x') l -> reval m x = reval m x') ->
  forall o x, In (o, x) l -> eval_all dst l m dst o = reval m x.
Proof.
  induction l as [|[o1 x1] l IH]; intros m R K o x I; [destruct I|]. cbn. fold (eval_all dst l (eval_one dst m (o1, x1))).
  assert (RA : forall o x, In (o, x) l -> reval (eval_one dst m (o1, x1)) x = reval m x).
  { intros o' x' I'. apply reval_agree. intros v o2 H. apply one_other. eapply R; [right; exact I'|exact H]. }
  destruct (in_dec Z.eq_dec o (map fst l)) as [J|J].
  - apply in_map_iff in J as ([o' x'] & E & J). cbn in E. subst o'.
    rewrite (IH (eval_one dst m (o1, x1))) with (x := x'); [| | |exact J].
    + rewrite (RA o x' J). apply (K o); [right; exact J|exact I].
    + intros oo xx v o2 A B. eapply R; [right; exact A|exact B].
    + intros oo a b A B. rewrite (RA oo a A), (RA oo b B). apply (K oo); right; assumption.
  - rewrite eval_outside by exact J. rewrite one_dst. cbn [fst snd]. destruct I as [E|I].
    + injection E as -> ->. rewrite Z.eqb_refl. reflexivity.
    + exfalso. apply J, in_map_iff. exists (o, x). auto.
Qed.
Lemma lrun_evals dst (ls : list (list (Z * rexpr V))) : forall m,
  lrun (map (GEval dst) ls) m = eval_all dst (concat ls) m.
Proof.
  unfold lrun, eval_all. induction ls as [|l ls IH]; intros m; [reflexivity|]. cbn [map fold_left concat].
  rewrite fold_left_app. apply IH.
Qed.

(** Boxes. *)
Lemma box_in b : forall l, In l (box_indices b) <-> in_box b l.
Proof.
  unfold in_box. induction b as [|[f n] b IH]; intros l; cbn [box_indices].
  - split; [intros [<-|[]]; constructor|]. intros H; inversion H; left; reflexivity.
  - rewrite in_flat_map. split.
    + intros (i & Hi & Hl). apply in_map_iff in Hl as (l' & <- & Hl). apply in_seq in Hi. constructor; [cbn; lia|apply IH, Hl].
    + intros H; inversion H as [|x ? l' ? A B]; subst. cbn in A. exists x. split; [apply in_seq; lia|].
      apply in_map_iff. exists l'. split; [reflexivity|apply IH, B].
Qed.
Lemma nodup_app2 {A} (l l' : list A) : NoDup l -> NoDup l' -> (forall x, In x l -> ~ In x l') -> NoDup (l ++ l').
Proof.
  induction 1 as [|x l Hx H IH]; intros N D; [exact N|]. cbn. constructor.
  - rewrite in_app_iff. intros [C|C]; [auto|]. apply (D x); [left; reflexivity|exact C].
  - apply IH; [exact N|]. intros y Hy. apply D. right; exact Hy.
Qed.
Lemma nodup_map2 {A B} (f : A -> B) l : (forall x y, In x l -> In y l -> f x = f y -> x = y) -> NoDup l -> NoDup (map f l).
Proof.
  intros I N. induction N as [|x l Hx N IH]; cbn; constructor.
  - intros C. apply in_map_iff in C as (y & E & Hy). rewrite (I x y) in Hx; auto; [left; reflexivity|right; exact Hy].
  - apply IH. intros a b Ha Hb. apply I; right; assumption.
Qed.
Lemma box_nodup b : NoDup (box_indices b).
Proof.
  induction b as [|[f n] b IH]; cbn [box_indices]; [repeat constructor; auto|].
  generalize (seq_NoDup n f). induction (seq f n) as [|i s IHs]; intros N; [constructor|]. cbn [flat_map].
  inversion N as [|? ? N1 N2]; subst. apply nodup_app2; [|apply IHs, N2|].
  - apply nodup_map2; [|exact IH]. intros x y _ _ E. congruence.
  - intros l Hl C. apply in_map_iff in Hl as (y & <- & _). apply in_flat_map in C as (j & Hj & C).
    apply in_map_iff in C as (z & E & _). injection E as -> _. auto.
Qed.
End Eval.

(** ** Statements *)
Lemma same_map_eq a b : a_ext a = a_ext b -> same_map a b = true -> a = b.
Proof.
  intros E H. unfold same_map in H. apply andb_prop in H as [H H3]. apply andb_prop in H as [H1 H2].
  apply eqb_prop in H1. apply dists_eq_eq in H2. apply list_eqb_eq in H3.
  destruct a as [d p r], b as [d' p' r']. cbn in *. unfold a_ext, ext_of in E. cbn in E. subst. f_equal.
  revert d' E H2. induction d as [|[x n] d IH]; intros [|[y k] d'] E F; cbn in *; try discriminate; auto.
  injection E as -> E. injection F as -> F. f_equal. auto.
Qed.
Lemma same_map_refl a : same_map a a = true.
Proof.
  unfold same_map. rewrite eqb_reflx, list_eqb_refl, andb_true_r. cbn [andb].
  induction (map fst (a_dims a)) as [|x l IH]; [reflexivity|]. cbn. rewrite !Nat.eqb_refl, IH. reflexivity.
Qed.

Lemma collect_some {A} (h : nat -> A) k (f : nat -> option (list A)) : forall i,
  (forall p, i <= p < i + k -> f p = Some [h p]) -> collect i k f = Some (map h (seq i k)).
Proof.
  induction k as [|k IH]; intros i H; [reflexivity|]. cbn [collect seq map]. rewrite H by lia. cbn [bind].
  replace (i + 1) with (S i) by lia. rewrite IH by (intros; apply H; lia). reflexivity.
Qed.
Lemma collectL_some {A B} (h : A -> B) (l : list A) (f : A -> option (list B)) :
  (forall x, In x l -> f x = Some [h x]) -> collectL l f = Some (map h l).
Proof.
  induction l as [|x l IH]; intros H; [reflexivity|]. cbn [collectL map]. rewrite H by (left; reflexivity). cbn [bind].
  rewrite IH by (intros; apply H; right; assumption). reflexivity.
Qed.
Lemma collect_ex {A} k (f : nat -> option A) : (forall p, p < k -> exists x, f p = Some x) ->
  forall d : A, exists h : nat -> A, forall p, p < k -> f p = Some (h p).
Proof.
  intros H d. exists (fun p => match f p with Some x => x | None => d end). intros p L. destruct (H p L) as (x & ->). reflexivity.
Qed.

(** Maps of one patch per subblock. *)
Lemma plain_first m sb p ld : Forall (fun d => plain (fst d) = true) m -> map_local_domain m sb p = Some ld ->
  Forall (fun fl => fst fl = 0) ld.
Proof.
  intros F E. unfold map_local_domain, patch_dom in E. destruct (sb <? map_num_subblocks m); [|discriminate]. cbn [bind] in E.
  destruct (map_num_patches m sb); [|discriminate]. cbn [bind] in E. destruct (p <? n); [|discriminate]. cbn [bind] in E.
  destruct (split_tuple sb (subblocks m)) as [sbs|]; [|discriminate]. cbn [bind] in E.
  destruct (patch_counts m sbs) as [ks|]; [|discriminate]. cbn [bind] in E.
  destruct (split_tuple p ks) as [ps|]; [|discriminate]. cbn [bind] in E.
  clear -F E. revert sbs ps ld E. induction F as [|[d k] m P F IH]; intros sbs ps ld E.
  - cbn [combine] in E. destruct ps; [|discriminate]. injection E as <-. constructor.
  - destruct sbs as [|s sbs]; cbn [combine] in E.
    + destruct ps; [|discriminate]. injection E as <-. constructor.
    + destruct ps as [|q ps]; [discriminate|]. cbn [omap2 fst snd] in *.
      destruct (patch_local_dom d k s q) as [fl|] eqn:L; [|discriminate]. cbn [bind] in E.
      destruct (omap2 _ _ ps) as [r|] eqn:R; [|discriminate]. cbn [bind] in E. injection E as <-. constructor.
      * unfold patch_local_dom in L. destruct d as [|b|b c]; [| |cbn in P; discriminate P].
        -- destruct ((s =? 0) && (q =? 0)); cbn [bind] in L; [|discriminate L]. injection L as <-. reflexivity.
        -- destruct (s <? b); [|discriminate L]. destruct (q =? 0); [|discriminate L].
           destruct (segment_size_block k b s); [|discriminate L]. cbn [bind] in L. injection L as <-. reflexivity.
      * exact (IH _ _ _ R).
Qed.
Lemma domain_nth_zero ld l : Forall (fun fl => fst fl = 0) ld -> in_box ld l ->
  domain_nth ld l = l /\ in_range (map snd ld) l.
Proof.
  unfold in_box, in_range, domain_nth. intros F H. induction H as [|x fl l ld A B IH]; [split; [reflexivity|constructor]|].
  inversion F as [|? ? F1 F2]; subst. destruct (IH F2) as [I1 I2]. cbn [combine map fst snd] in *. rewrite F1, I1. split; [reflexivity|].
  constructor; [cbn; lia|exact I2].
Qed.

Lemma remap_ok n o d sb ext l g : var_ok n o d -> sb < map_num_subblocks (a_dims (v_map d)) ->
  a_lext (v_map d) sb = Some ext -> in_range ext l -> a_gfl (v_map d) sb l = Some g -> remap_index d sb l = Some g.
Proof.
  intros VO L E R G. pose proof (vo_map _ _ _ VO) as Ha. unfold remap_index.
  destruct (a_rep (v_map d) || v_bbb d) eqn:Q; [|exact G].
  assert (PL : Forall (fun x => plain (fst x) = true) (a_dims (v_map d))).
  { apply orb_prop in Q as [Q|Q].
    - eapply Forall_impl; [|apply (ok_rep _ Ha Q)]. intros x Hx. cbn in Hx. rewrite Hx. reflexivity.
    - destruct (vo_bbb _ _ _ VO Q) as [_ F]. eapply Forall_impl; [|exact F]. intros x (k & ->). reflexivity. }
  pose proof (plain_np _ sb (ok_dims _ Ha) PL L) as NP.
  assert (E' := E). rewrite (a_lx _ Ha) in E'.
  destruct (proj1 (proj1 (mp_local_tiles _ (mp _ Ha) sb ext E' l)) R) as (p & ld & El & Bl).
  assert (p = 0); [|subst p].
  { unfold map_local_domain, patch_dom in El. destruct (sb <? _); [|discriminate]. cbn [bind] in El. rewrite NP in El. cbn [bind] in El.
    destruct (Nat.ltb_spec p 1); [lia|discriminate]. }
  destruct (patches_exist _ Ha sb L) as (k & K & GD & _). rewrite (a_np _ Ha), NP in K. injection K as <-.
  destruct (GD 0) as (gd & Eg); [lia|]. rewrite Eg. cbn [bind]. rewrite (a_gd _ Ha) in Eg.
  destruct (mp_patch_match _ (mp _ Ha) sb 0 gd Eg) as (ld' & El' & S & MM). assert (ld' = ld) by congruence. subst ld'.
  destruct (domain_nth_zero ld l (plain_first _ _ _ _ PL El) Bl) as [Z1 Z2]. rewrite S in Z2. specialize (MM l Z2).
  rewrite Z1 in MM. rewrite (a_gf _ Ha sb ext l E' R) in G. congruence.
Qed.

Section Stmt.
Context {V : Type} (eager : nat -> nat -> nat -> bool) (n : nat) (D : nat -> var) (O : nat -> list nat) (buf : nat).
Notation P0 := (list (gact V)).

Lemma local_elem_ok r l (e : pexpr V) : exists x, local_elem D r l e = Some x /\
  (forall v o, In (v, o) (reads x) -> In v (leaf_vars e) /\ o = off (v_st (D v) r) l) /\
  (forall a, has_same_map D a e = true -> forall m X g,
     (forall v, In v (leaf_vars e) -> m v (off (v_st (D v) r) l) = X v g) -> reval m x = geval X g e).
Proof.
  induction e as [v|y|f|f e1 IH1|f e1 IH1 e2 IH2|f e1 IH1 e2 IH2 e3 IH3]; cbn [local_elem].
  - eexists; split; [reflexivity|]. split.
    + intros w o [E|[]]. injection E as <- <-. cbn; auto.
    + intros a _ m X g H. cbn. apply H. left; reflexivity.
  - eexists; split; [reflexivity|]. split; [intros ? ? []|]. reflexivity.
  - eexists; split; [reflexivity|]. split; [intros ? ? []|]. cbn. discriminate.
  - destruct IH1 as (x & -> & R1 & V1). eexists; split; [reflexivity|]. split; [exact R1|].
    intros a S m X g H. cbn. rewrite (V1 a S m X g H). reflexivity.
  - destruct IH1 as (x & -> & R1 & V1). destruct IH2 as (y & -> & R2 & V2). eexists; split; [reflexivity|]. split.
    + cbn. intros v o I. apply in_app_iff in I as [I|I]; [apply R1 in I|apply R2 in I]; rewrite in_app_iff; tauto.
    + intros a S m X g H. cbn in S. apply andb_prop in S as [S1 S2]. cbn in *.
      rewrite (V1 a S1 m X g), (V2 a S2 m X g); [reflexivity|..]; intros; apply H, in_or_app; auto.
  - destruct IH1 as (x & -> & R1 & V1). destruct IH2 as (y & -> & R2 & V2). destruct IH3 as (z & -> & R3 & V3).
    eexists; split; [reflexivity|]. split.
    + cbn. intros v o I. rewrite !in_app_iff in *. destruct I as [I|[I|I]]; [apply R1 in I|apply R2 in I|apply R3 in I]; tauto.
    + intros a S m X g H. cbn in S. apply andb_prop in S as [S S3]. apply andb_prop in S as [S1 S2]. cbn in *.
      rewrite (V1 a S1 m X g), (V2 a S2 m X g), (V3 a S3 m X g); [reflexivity|..]; intros; apply H; rewrite !in_app_iff; auto.
Qed.

Lemma same_map_leaf a (e : pexpr V) v : has_same_map D a e = true -> In v (leaf_vars e) -> same_map a (v_map (D v)) = true.
Proof.
  induction e as [w|y|f|f e1 IH1|f e1 IH1 e2 IH2|f e1 IH1 e2 IH2 e3 IH3]; cbn; intros S I; try contradiction; auto.
  - destruct I as [<-|[]]. exact S.
  - apply andb_prop in S as [S1 S2]. apply in_app_iff in I as [I|I]; auto.
  - apply andb_prop in S as [S S3]. apply andb_prop in S as [S1 S2]. rewrite !in_app_iff in I. destruct I as [I|[I|I]]; auto.
Qed.

Lemma range_box ext l : in_box (map (fun n => (0, n)) ext) l <-> in_range ext l.
Proof.
  unfold in_box, in_range. revert l. induction ext as [|k ext IH]; intros l; cbn [map].
  - split; intros H; inversion H; constructor.
  - split; intros H; inversion H as [|x ? l' ? A B]; subst; constructor; cbn in *; try lia; apply IH, B.
Qed.

Variable U : nat -> Prop.
Hypothesis UV : forall v, U v -> var_ok n (O v) (D v).

(** What a statement achieves. *)
Definition achieves (s : stmt V) (I : list nat) (M : nat -> nat -> Z -> V) (X : nat -> list nat -> V)
    (prg : nat -> option P0) : Prop :=
  exists P M', (forall r, r < n -> prg r = Some (P r)) /\ (forall r, n <= r -> P r = []) /\ execs eager P M M' /\
    (forall v, In v (s_lhs s :: I) -> forall r, holds (v_map (D v)) (v_st (D v)) (fun r => M' r v) (run_stmt X s v) r) /\
    (forall r v o, U v -> (v = s_lhs s -> forall g, ~ element_at (v_map (D v)) (v_st (D v)) r o g) -> M' r v o = M r v o).

Lemma achieve_holds (s : stmt V) I M M' X : (forall v, In v I -> U v) ->
  (forall v, In v I -> forall r, holds (v_map (D v)) (v_st (D v)) (fun r => M r v) (X v) r) ->
  (forall r v o, U v -> (v = s_lhs s -> forall g, ~ element_at (v_map (D v)) (v_st (D v)) r o g) -> M' r v o = M r v o) ->
  (forall r sb ext l g, a_subblock (v_map (D (s_lhs s))) r = Some sb -> a_lext (v_map (D (s_lhs s))) sb = Some ext ->
     in_range ext l -> a_gfl (v_map (D (s_lhs s))) sb l = Some g ->
     M' r (s_lhs s) (off (v_st (D (s_lhs s)) r) l) = geval X g (s_rhs s)) ->
  forall v, In v (s_lhs s :: I) -> forall r, holds (v_map (D v)) (v_st (D v)) (fun r => M' r v) (run_stmt X s v) r.
Proof.
  intros IU HI FR HL v Hv r sb ext l g E1 E2 E3 E4. unfold run_stmt. destruct (Nat.eqb_spec v (s_lhs s)) as [->|N].
  - eapply HL; eauto.
  - destruct Hv as [Hv|Hv]; [congruence|]. rewrite FR; [|auto|congruence]. eapply HI; eauto.
Qed.

Lemma local_achieves s I M X : stmt_ok n D O U I s -> (forall v, In v I -> U v) ->
  (forall v, In v I -> forall r, holds (v_map (D v)) (v_st (D v)) (fun r => M r v) (X v) r) ->
  has_same_map D (v_map (D (s_lhs s))) (s_rhs s) = true -> achieves s I M X (local_assign D s).
Proof.
  intros SO IU HI SM. set (lhs := s_lhs s) in *. pose proof (UV lhs (so_lhs _ _ _ _ _ _ SO)) as VL.
  pose proof (vo_map _ _ _ VL) as ML.
  assert (LV : forall v, In v (leaf_vars (s_rhs s)) -> v_map (D v) = v_map (D lhs)).
  { intros v Hv. symmetry. apply same_map_eq; [symmetry; apply (so_size _ _ _ _ _ _ SO v Hv)|]. eapply same_map_leaf; eauto. }
  set (el := fun r l => match local_elem D r l (s_rhs s) with Some x => x | None => RRead 0 0 end).
  set (es := fun r ext => map (fun l => (off (v_st (D lhs) r) l, el r l)) (box_indices (map (fun n => (0, n)) ext))).
  assert (EL : forall r l, local_elem D r l (s_rhs s) = Some (el r l)).
  { intros r l. unfold el. destruct (local_elem_ok r l (s_rhs s)) as (x & -> & _). reflexivity. }
  assert (LE : forall r sb, a_subblock (v_map (D lhs)) r = Some sb -> exists ext, a_lext (v_map (D lhs)) sb = Some ext).
  { intros r sb E. rewrite (a_lx _ ML). apply (mp_defined _ (mp _ ML)). apply (a_valid _ ML _ _ E). }
  set (P := fun r => match a_subblock (v_map (D lhs)) r with
                     | None => []
                     | Some sb => match a_lext (v_map (D lhs)) sb with Some ext => [GEval lhs (es r ext)] | None => [] end
                     end : P0).
  assert (OUT : forall r v o, v = lhs -> (forall g, ~ element_at (v_map (D v)) (v_st (D v)) r o g) -> lrun (P r) (M r) v o = M r v o).
  { intros r v o -> NE. unfold P. destruct (a_subblock (v_map (D lhs)) r) as [sb|] eqn:E; [|reflexivity].
    destruct (a_lext (v_map (D lhs)) sb) as [ext|] eqn:E2; [|reflexivity]. cbn. apply eval_outside.
    intros C. unfold es in C. rewrite map_map in C. apply in_map_iff in C as (l & <- & Hl). cbn [fst] in *.
    apply box_in, range_box in Hl. rewrite (a_lx _ ML) in E2.
    destruct (mp_back _ (mp _ ML) sb ext l E2 Hl) as (g & G & _). apply (NE g). exists sb, ext, l.
    rewrite (a_lx _ ML), (a_gf _ ML sb ext l E2 Hl). auto. }
  exists P, (fun r => lrun (P r) (M r)). split; [|split; [|split; [|split]]].
  - intros r _. unfold local_assign, P. fold lhs. destruct (a_subblock (v_map (D lhs)) r) as [sb|] eqn:E; [|reflexivity].
    destruct (LE r sb E) as (ext & ->). cbn [bind].
    rewrite (collectL_some (fun l => (off (v_st (D lhs) r) l, el r l))); [reflexivity|]. intros l _. rewrite EL. reflexivity.
  - intros r L. unfold P. rewrite (no_sub n _ r ML (vo_procs _ _ _ VL) L). reflexivity.
  - apply (execs_local eager n).
    + intros r. unfold P. destruct (a_subblock _ r); [|constructor]. destruct (a_lext _ _); [repeat constructor|constructor].
    + intros r L. unfold P. rewrite (no_sub n _ r ML (vo_procs _ _ _ VL) L). reflexivity.
  - apply (achieve_holds s I M); auto.
    + intros r v o Uv NE. destruct (Nat.eq_dec v lhs) as [->|N]; [apply OUT; auto|].
      unfold P. destruct (a_subblock _ r); [|reflexivity]. destruct (a_lext _ _); [|reflexivity]. cbn. apply eval_other, N.
    + fold lhs. intros r sb ext l g E1 E2 E3 E4. unfold P. rewrite E1, E2. cbn.
      destruct (local_elem_ok r l (s_rhs s)) as (x & Ex & Rx & Vx). rewrite EL in Ex. injection Ex as Ex.
      rewrite (eval_self lhs (es r ext) (M r)) with (x := el r l).
      * rewrite Ex. apply (Vx _ SM). intros v Hv.
        apply (HI v (so_reads _ _ _ _ _ _ SO v Hv) r sb ext l g); rewrite ?(LV v Hv); auto.
      * unfold es. rewrite map_map. cbn [fst]. apply nodup_map2; [|apply box_nodup].
        intros a b Ha Hb E. apply box_in, range_box in Ha. apply box_in, range_box in Hb.
        exact (vo_cell _ _ _ VL r sb ext E1 E2 a b Ha Hb E).
      * intros o y v o' Hi Hr Ev. unfold es in Hi. apply in_map_iff in Hi as (l' & Eq & _). injection Eq as <- <-.
        destruct (local_elem_ok r l' (s_rhs s)) as (x' & Ex' & Rx' & _). rewrite EL in Ex'. injection Ex' as <-.
        apply Rx' in Hr as (_ & ->). subst v. reflexivity.
      * unfold es. apply in_map_iff. exists l. split; [reflexivity|]. apply box_in, range_box, E3.
  - intros r v o Uv NE. destruct (Nat.eq_dec v lhs) as [->|N]; [apply OUT; auto|].
    unfold P. destruct (a_subblock _ r); [|reflexivity]. destruct (a_lext _ _); [|reflexivity]. cbn. apply eval_other, N.
Qed.

Lemma assign_achieves s I M X v : stmt_ok n D O U I s -> (forall v, In v I -> U v) ->
  (forall v, In v I -> forall r, holds (v_map (D v)) (v_st (D v)) (fun r => M r v) (X v) r) ->
  s_rhs s = PVar v -> has_same_map D (v_map (D (s_lhs s))) (s_rhs s) = false ->
  achieves s I M X (assign_program D O buf v (s_lhs s)).
Proof.
  intros SO IU HI EQ SM. set (lhs := s_lhs s) in *.
  assert (Hv : In v (leaf_vars (s_rhs s))) by (rewrite EQ; left; reflexivity).
  pose proof (so_reads _ _ _ _ _ _ SO v Hv) as Iv.
  assert (N : v <> lhs). { intros ->. rewrite EQ in SM. cbn in SM. rewrite same_map_refl in SM. discriminate. }
  destruct (assign_exec eager n D O buf v lhs M (X v) N (UV v (IU v Iv)) (UV lhs (so_lhs _ _ _ _ _ _ SO)) (so_size _ _ _ _ _ _ SO v Hv)
    (so_direct _ _ _ _ _ _ SO v EQ) (HI v Iv)) as (P & M' & A1 & A2 & A3 & A4 & A5 & A6).
  assert (FR : forall r v o, U v -> (v = s_lhs s -> forall g, ~ element_at (v_map (D v)) (v_st (D v)) r o g) -> M' r v o = M r v o).
  { intros r w o Uw NE. destruct (Nat.eq_dec w lhs) as [->|Nw]; [apply A6, NE; reflexivity|apply A4, Nw]. }
  exists P, M'. split; [auto|]. split; [exact A2|]. split; [exact A3|]. split; [|exact FR].
  apply (achieve_holds s I M); auto. fold lhs. intros r sb ext l g E1 E2 E3 E4. rewrite EQ. cbn. exact (A5 r sb ext l g E1 E2 E3 E4).
Qed.

(** Reorganization into the temporaries. *)
Lemma reorg_exec (X : nat -> list nat -> V) lhs : forall vts M, NoDup (map snd vts) ->
  (forall v t, In (v, t) vts -> U v /\ ~ U t /\ var_ok n (O t) (D t) /\ v_map (D t) = v_map (D lhs) /\ unit_stride (D t) /\
     a_ext (v_map (D v)) = a_ext (v_map (D lhs))) ->
  (forall v t, In (v, t) vts -> forall r, holds (v_map (D v)) (v_st (D v)) (fun r => M r v) (X v) r) ->
  exists P M', (forall r, collectL vts (fun vt => @assign_program V D O buf (fst vt) (snd vt) r) = Some (P r)) /\
    (forall r, n <= r -> P r = []) /\ execs eager P M M' /\
    (forall r v o, ~ In v (map snd vts) -> M' r v o = M r v o) /\
    (forall v t, In (v, t) vts -> forall r, holds (v_map (D t)) (v_st (D t)) (fun r => M' r t) (X v) r).
Proof.
  induction vts as [|[v t] vts IH]; intros M N C H.
  - exists (fun _ => []), M. split; [reflexivity|]. split; [reflexivity|]. split; [apply execs_nil; reflexivity|]. split; [reflexivity|].
    intros ? ? [].
  - cbn [map snd] in N. inversion N as [|? ? N1 N2]; subst.
    destruct (C v t) as (Uv & Ut & Vt & Em & Us & Ex); [left; reflexivity|].
    assert (Nvt : v <> t) by congruence.
    destruct (assign_exec eager n D O buf v t M (X v) Nvt (UV v Uv) Vt) as (P1 & M1 & A1 & A2 & A3 & A4 & A5 & _).
    { rewrite Em. exact Ex. } { intros _. exact Us. } { apply (H v t). left; reflexivity. }
    destruct (IH M1 N2) as (P2 & M2 & B1 & B2 & B3 & B4 & B5).
    { intros w u I. apply C. right; exact I. }
    { intros w u I r sb ext l g E1 E2 E3 E4. rewrite A4.
      - apply (H w u (or_intror I) r sb ext l g E1 E2 E3 E4).
      - intros ->. destruct (C t u (or_intror I)) as (Q & _). contradiction. }
    exists (fun r => P1 r ++ P2 r), M2. split; [|split; [|split; [|split]]].
    + intros r. cbn [collectL fst snd]. rewrite A1, B1. reflexivity.
    + intros r L. rewrite A2, B2 by exact L. reflexivity.
    + exact (execs_app eager _ _ _ _ _ A3 B3).
    + intros r w o Hw. cbn in Hw. rewrite B4 by tauto. apply A4. intros ->. tauto.
    + intros w u [I|I].
      * injection I as <- <-. intros r sb ext l g E1 E2 E3 E4. rewrite B4 by exact N1. exact (A5 r sb ext l g E1 E2 E3 E4).
      * apply B5, I.
Qed.

Lemma combine_app_l {A B} (a a' : list A) (ts : list B) : combine (a ++ a') ts = combine a ts ++ combine a' (skipn (length a) ts).
Proof.
  revert ts. induction a as [|x a IH]; intros ts; [reflexivity|]. destruct ts as [|t ts]; cbn; [destruct a'; reflexivity|].
  rewrite IH. reflexivity.
Qed.

Lemma skipn2 {A} a b (l : list A) : skipn a (skipn b l) = skipn (b + a) l.
Proof.
  revert l. induction b as [|b IH]; intros l; [reflexivity|]. destruct l as [|x l]; [rewrite !skipn_nil; reflexivity|]. apply IH.
Qed.

Lemma remap_elem_ok d r sb l (e : pexpr V) : (has_gen e = true -> exists g, remap_index d sb l = Some g) -> forall ts,
  length (leaf_vars e) <= length ts ->
  exists x, remap_elem D d r sb l e ts = Some (x, skipn (length (leaf_vars e)) ts) /\
  (forall v o, In (v, o) (reads x) -> In v ts) /\
  (forall m X g, (has_gen e = true -> remap_index d sb l = Some g) ->
     (forall v t, In (v, t) (combine (leaf_vars e) ts) -> m t (off (v_st (D t) r) l) = X v g) -> reval m x = geval X g e).
Proof.
  assert (SK : forall (k : nat) (ts : list nat) v, In v (skipn k ts) -> In v ts).
  { intros k ts v Hv. rewrite <- (firstn_skipn k ts). apply in_or_app. right; exact Hv. }
  induction e as [v|y|f|f e1 IH1|f e1 IH1 e2 IH2|f e1 IH1 e2 IH2 e3 IH3]; cbn [remap_elem leaf_vars has_gen length skipn]; intros G ts L.
  - destruct ts as [|t ts]; [cbn in L; lia|]. eexists; split; [reflexivity|]. split.
    + intros w o [E|[]]. injection E as <- _. left; reflexivity.
    + intros m X g _ H. cbn. apply H. left; reflexivity.
  - eexists; split; [reflexivity|]. split; [intros ? ? []|]. reflexivity.
  - destruct (G eq_refl) as (g & ->). cbn [bind]. eexists; split; [reflexivity|]. split; [intros ? ? []|].
    intros m X g' E _. cbn. specialize (E eq_refl). injection E as ->. reflexivity.
  - destruct (IH1 G ts L) as (x & -> & R1 & V1). cbn [bind fst snd]. eexists; split; [reflexivity|]. split; [exact R1|].
    intros m X g Hg H. cbn. rewrite (V1 m X g Hg H). reflexivity.
  - rewrite app_length in L. 
    destruct (IH1 (fun Q => G (orb_true_intro _ _ (or_introl Q))) ts) as (x & -> & R1 & V1); [lia|]. cbn [bind fst snd].
    destruct (IH2 (fun Q => G (orb_true_intro _ _ (or_intror Q))) (skipn (length (leaf_vars e1)) ts)) as (y & -> & R2 & V2); [rewrite skipn_length; lia|].
    cbn [bind fst snd]. eexists; split; [rewrite skipn2, app_length; f_equal; f_equal; f_equal; lia|]. split.
    + cbn. intros w o I. apply in_app_iff in I as [I|I]; [apply (R1 _ _ I)|eapply SK, (R2 _ _ I)].
    + intros m X g Hg H. cbn. rewrite combine_app_l in H.
      rewrite (V1 m X g), (V2 m X g); [reflexivity|..].
      * intros Q. apply Hg. rewrite Q. apply orb_true_r.
      * intros. apply H, in_or_app. right; assumption.
      * intros Q. apply Hg. rewrite Q. reflexivity.
      * intros. apply H, in_or_app. left; assumption.
  - rewrite !app_length in L. 
    destruct (IH1 (fun Q => G (orb_true_intro _ _ (or_introl (orb_true_intro _ _ (or_introl Q))))) ts) as (x & -> & R1 & V1); [lia|]. cbn [bind fst snd].
    destruct (IH2 (fun Q => G (orb_true_intro _ _ (or_introl (orb_true_intro _ _ (or_intror Q))))) (skipn (length (leaf_vars e1)) ts)) as (y & -> & R2 & V2); [rewrite skipn_length; lia|].
    cbn [bind fst snd].
    destruct (IH3 (fun Q => G (orb_true_intro _ _ (or_intror Q))) (skipn (length (leaf_vars e2)) (skipn (length (leaf_vars e1)) ts))) as (z & -> & R3 & V3); [rewrite !skipn_length; lia|].
    cbn [bind fst snd]. eexists; split; [rewrite !skipn2, !app_length; f_equal; f_equal; f_equal; lia|]. split.
    + cbn. intros w o I. rewrite !in_app_iff in I. destruct I as [I|[I|I]]; [apply (R1 _ _ I)|eapply SK, (R2 _ _ I)|eapply SK, SK, (R3 _ _ I)].
    + intros m X g Hg H. cbn. rewrite !combine_app_l in H.
      rewrite (V1 m X g), (V2 m X g), (V3 m X g); [reflexivity|..].
      * intros Q. apply Hg. rewrite Q. apply orb_true_r.
      * intros. apply H. rewrite !in_app_iff. auto.
      * intros Q. apply Hg. rewrite Q, orb_true_r. reflexivity.
      * intros. apply H. rewrite !in_app_iff. auto.
      * intros Q. apply Hg. rewrite Q. reflexivity.
      * intros. apply H. rewrite !in_app_iff. auto.
Qed.

(** The patches of a subblock. *)
Lemma patches_tile a sb : amap_ok a -> sb < map_num_subblocks (a_dims a) ->
  exists k ext, a_num_patches a sb = Some k /\ a_lext a sb = Some ext /\
    (forall p, p < k -> exists ld, a_ldom a sb p = Some ld /\ forall l, in_box ld l -> in_range ext l) /\
    (forall l, in_range ext l -> exists p ld, p < k /\ a_ldom a sb p = Some ld /\ in_box ld l).
Proof.
  intros Ha L. destruct (mp_patches _ (mp _ Ha) sb L) as (k & E & P).
  destruct (proj1 (mp_defined _ (mp _ Ha) sb) L) as (ext & X). exists k, ext. rewrite (a_np _ Ha), (a_lx _ Ha).
  split; [exact E|]. split; [exact X|]. split.
  - intros p Hp. apply P in Hp as (gd & G). destruct (mp_patch_match _ (mp _ Ha) sb p gd G) as (ld & Ld & _).
    exists ld. rewrite (a_ld _ Ha). split; [exact Ld|]. intros l Hl. apply (mp_local_tiles _ (mp _ Ha) sb ext X l). exists p, ld. auto.
  - intros l Hl. apply (mp_local_tiles _ (mp _ Ha) sb ext X l) in Hl as (p & ld & Ld & Hl). exists p, ld. rewrite (a_ld _ Ha).
    split; [|auto]. unfold map_local_domain, patch_dom in Ld. destruct (sb <? _); [|discriminate]. cbn [bind] in Ld. rewrite E in Ld. cbn [bind] in Ld.
    destruct (Nat.ltb_spec p k); [assumption|discriminate].
Qed.

Lemma expr_achieves s I M X : stmt_ok n D O U I s -> (forall v, s_rhs s <> PVar v) -> (forall v, In v I -> U v) ->
  (forall v, In v I -> forall r, holds (v_map (D v)) (v_st (D v)) (fun r => M r v) (X v) r) ->
  achieves s I M X (expr_assign D O buf s).
Proof.
  intros SO NV IU HI. set (lhs := s_lhs s) in *. pose proof (UV lhs (so_lhs _ _ _ _ _ _ SO)) as VL.
  pose proof (vo_map _ _ _ VL) as ML. set (e := s_rhs s) in *. set (ts := s_temps s) in *. set (a := v_map (D lhs)) in *.
  destruct (so_temps _ _ _ _ _ _ SO NV) as [TL TN]. fold ts e in TL, TN.
  assert (CS : map snd (combine (leaf_vars e) ts) = ts).
  { clear -TL. revert TL. generalize (leaf_vars e). induction ts as [|t l IH]; intros [|v w] E; cbn in *; try discriminate; [reflexivity|].
    rewrite IH; [reflexivity|lia]. }
  assert (CI : forall v t, In (v, t) (combine (leaf_vars e) ts) -> In v (leaf_vars e) /\ In t ts).
  { intros v t Hc. split; [eapply in_combine_l|eapply in_combine_r]; eauto. }
  assert (TLH : forall t, In t ts -> t <> lhs).
  { intros t Ht ->. apply (so_temp _ _ _ _ _ _ SO NV) in Ht as (Q & _). apply Q, (so_lhs _ _ _ _ _ _ SO). }
  destruct (reorg_exec X lhs (combine (leaf_vars e) ts) M) as (PR & M1 & R1 & R2 & R3 & R4 & R5).
  { rewrite CS. exact TN. }
  { intros v t Hc. apply CI in Hc as [Hv Ht]. destruct (so_temp _ _ _ _ _ _ SO NV t Ht) as (Q1 & Q2 & Q3 & Q4).
    split; [apply IU, (so_reads _ _ _ _ _ _ SO), Hv|]. split; [exact Q1|]. split; [exact Q2|]. split; [exact Q3|]. split; [exact Q4|].
    apply (so_size _ _ _ _ _ _ SO v Hv). }
  { intros v t Hc. apply CI in Hc as [Hv _]. apply HI, (so_reads _ _ _ _ _ _ SO), Hv. }
  rewrite CS in R4.
  set (el := fun r sb l => match remap_elem D (D lhs) r sb l e ts with Some x => fst x | None => RRead 0 0 end).
  set (ldm := fun sb p => match a_ldom a sb p with Some d => d | None => [] end).
  set (es := fun r sb p => map (fun l => (off (v_st (D lhs) r) l, el r sb l)) (box_indices (ldm sb p))).
  set (EV := fun r => match a_subblock a r with
                      | None => []
                      | Some sb => match a_num_patches a sb with
                                   | Some k => map (GEval lhs) (map (es r sb) (seq 0 k))
                                   | None => []
                                   end
                      end : P0).
  (* every element of a subblock has an expression with the right value *)
  assert (EL : forall r sb ext l, a_subblock a r = Some sb -> a_lext a sb = Some ext -> in_range ext l ->
     exists g, a_gfl a sb l = Some g /\ (exists rest, remap_elem D (D lhs) r sb l e ts = Some (el r sb l, rest)) /\
       (forall v o, In (v, o) (reads (el r sb l)) -> In v ts) /\ reval (M1 r) (el r sb l) = geval X g e).
  { intros r sb ext l E1 E2 E3. assert (E2' := E2). rewrite (a_lx _ ML) in E2'.
    destruct (mp_back _ (mp _ ML) sb ext l E2' E3) as (g & G & _). rewrite <- (a_gf _ ML sb ext l E2' E3) in G. fold a in G.
    pose proof (remap_ok n (O lhs) (D lhs) sb ext l g VL (a_valid _ ML _ _ E1) E2 E3 G) as RI.
    destruct (remap_elem_ok (D lhs) r sb l e (fun _ => ex_intro _ g RI) ts) as (x & Ex & Rx & Vx); [lia|].
    assert (Z : el r sb l = x) by (unfold el; rewrite Ex; reflexivity).
    exists g. split; [exact G|]. rewrite Z. split; [eexists; exact Ex|]. split; [exact Rx|]. apply Vx; [intros _; exact RI|].
    intros v t Hc. destruct (so_temp _ _ _ _ _ _ SO NV t (proj2 (CI v t Hc))) as (_ & _ & Q3 & _). fold lhs a in Q3.
    apply (R5 v t Hc r sb ext l g); rewrite ?Q3; assumption. }
  (* the cells an evaluation stores into *)
  assert (EVr : forall r sb, a_subblock a r = Some sb -> exists k ext, a_num_patches a sb = Some k /\ a_lext a sb = Some ext /\
     (forall p, p < k -> a_ldom a sb p = Some (ldm sb p)) /\
     (forall o x, In (o, x) (concat (map (es r sb) (seq 0 k))) <->
        exists l, in_range ext l /\ o = off (v_st (D lhs) r) l /\ x = el r sb l)).
  { intros r sb E1. destruct (patches_tile a sb ML (a_valid _ ML _ _ E1)) as (k & ext & K & E2 & T1 & T2). exists k, ext.
    split; [exact K|]. split; [exact E2|].
    assert (LD : forall p, p < k -> a_ldom a sb p = Some (ldm sb p)).
    { intros p Hp. destruct (T1 p Hp) as (ld & E & _). unfold ldm. rewrite E. reflexivity. }
    split; [exact LD|]. intros o x. rewrite in_concat. split.
    - intros (l0 & H0 & H1). apply in_map_iff in H0 as (p & <- & Hp). apply in_seq in Hp. unfold es in H1.
      apply in_map_iff in H1 as (l & H1 & Hl). injection H1 as <- <-. apply box_in in Hl. exists l. split; [|auto].
      destruct (T1 p) as (ld & E & Q); [lia|]. unfold ldm in Hl. rewrite E in Hl. apply Q, Hl.
    - intros (l & Hl & -> & ->). destruct (T2 l Hl) as (p & ld & Hp & E & Q). exists (es r sb p). split.
      + apply in_map, in_seq. lia.
      + unfold es. apply in_map_iff. exists l. split; [reflexivity|]. apply box_in. unfold ldm. rewrite E. exact Q. }
  assert (FR : forall r v o, U v -> (v = s_lhs s -> forall g, ~ element_at (v_map (D v)) (v_st (D v)) r o g) ->
     lrun (EV r) (M1 r) v o = M r v o).
  { intros r v o Uv NE. assert (Z : M1 r v o = M r v o).
    { apply R4. intros C. apply (so_temp _ _ _ _ _ _ SO NV) in C as (Q & _). contradiction. }
    rewrite <- Z. unfold EV. destruct (a_subblock a r) as [sb|] eqn:E1; [|reflexivity].
    destruct (EVr r sb E1) as (k & ext & K & E2 & LD & CE). rewrite K, lrun_evals.
    destruct (Nat.eq_dec v lhs) as [->|N]; [|apply eval_other, N]. apply eval_outside. intros C. apply in_map_iff in C as ([o' x] & Eo & C).
    cbn in Eo. subst o'. apply CE in C as (l & Hl & -> & _). destruct (EL r sb ext l E1 E2 Hl) as (g & G & _).
    apply (NE eq_refl g). exists sb, ext, l. auto. }
  exists (fun r => PR r ++ EV r), (fun r => lrun (EV r) (M1 r)).
  split; [|split; [|split; [|split; [|exact FR]]]].
  - intros r Lr. unfold expr_assign. fold lhs e ts a.
    assert (GB : gen_built a e r = true).
    { unfold gen_built. destruct (has_gen e) eqn:HG; [|reflexivity]. destruct (a_rep a) eqn:RP; [|reflexivity].
      pose proof (so_gen _ _ _ _ _ _ SO HG RP r Lr) as Hin. fold lhs a in Hin. apply (a_sub_iff _ ML) in Hin as (sb & ->). reflexivity. }
    rewrite GB. unfold reorg. fold e ts. rewrite TL, Nat.eqb_refl, R1. cbn [bind]. unfold EV.
    destruct (a_subblock a r) as [sb|] eqn:E1; [|reflexivity].
    destruct (EVr r sb E1) as (k & ext & K & E2 & LD & CE). rewrite K. cbn [bind].
    rewrite (collect_some (fun p => GEval lhs (es r sb p))); [cbn [bind]; rewrite map_map; reflexivity|]. intros p Hp. rewrite LD by lia. cbn [bind].
    rewrite (collectL_some (fun l => (off (v_st (D lhs) r) l, el r sb l))); [reflexivity|]. intros l Hl.
    assert (IR : in_range ext l).
    { destruct (patches_tile a sb ML (a_valid _ ML _ _ E1)) as (k' & ext' & K' & E2' & T1 & _).
      destruct (T1 p) as (ld & Q1 & Q2); [assert (k' = k) by congruence; lia|]. rewrite LD in Q1 by lia. injection Q1 as Q1.
      assert (ext' = ext) by congruence. subst. apply Q2, box_in, Hl. }
    destruct (EL r sb ext l E1 E2 IR) as (g & _ & (rest & ->) & _). reflexivity.
  - intros r L. rewrite (R2 r L). unfold EV. fold a in ML. rewrite (no_sub n a r ML (vo_procs _ _ _ VL) L). reflexivity.
  - apply (execs_app eager _ _ _ M1 _ R3). apply (execs_local eager n).
    + intros r. unfold EV. destruct (a_subblock a r); [|constructor]. destruct (a_num_patches a n0); [|constructor].
      apply Forall_forall. intros x Hx. apply in_map_iff in Hx as (y & <- & _). exact Logic.I.
    + intros r L. unfold EV. fold a in ML. rewrite (no_sub n a r ML (vo_procs _ _ _ VL) L). reflexivity.
  - apply (achieve_holds s I M); auto. fold lhs e a. intros r sb ext l g E1 E2 E3 E4.
    unfold EV. rewrite E1. destruct (EVr r sb E1) as (k & ext' & K & E2' & LD & CE). assert (ext' = ext) by congruence. subst ext'.
    rewrite K, lrun_evals. destruct (EL r sb ext l E1 E2 E3) as (g' & G & _ & _ & VV). assert (g' = g) by congruence. subst g'. rewrite <- VV.
    apply eval_noread.
    + intros o x v o' Hx Hv. apply CE in Hx as (l' & Hl' & _ & ->). destruct (EL r sb ext l' E1 E2 Hl') as (_ & _ & _ & Q & _).
      apply TLH, (Q v o'), Hv.
    + intros o x x' Hx Hx'. apply CE in Hx as (l1 & Hl1 & -> & ->). apply CE in Hx' as (l2 & Hl2 & Eo & ->).
      rewrite (vo_cell _ _ _ VL r sb ext E1 E2 l1 l2 Hl1 Hl2 Eo). reflexivity.
    + apply CE. exists l. auto.
Qed.

Lemma stmt_achieves s I M X : stmt_ok n D O U I s -> (forall v, In v I -> U v) ->
  (forall v, In v I -> forall r, holds (v_map (D v)) (v_st (D v)) (fun r => M r v) (X v) r) ->
  achieves s I M X (stmt_program D O buf s).
Proof.
  intros SO IU HI. destruct (has_same_map D (v_map (D (s_lhs s))) (s_rhs s)) eqn:SM.
  - destruct (local_achieves s I M X SO IU HI SM) as (P & M' & A). exists P, M'. unfold stmt_program. rewrite SM. exact A.
  - assert (H : (exists v, s_rhs s = PVar v) \/ ((forall v, s_rhs s <> PVar v) /\ forall r, stmt_program D O buf s r = expr_assign D O buf s r)).
    { unfold stmt_program. rewrite SM. destruct (s_rhs s) as [v|y|f|f e1|f e1 e2|f e1 e2 e3]; [left; eauto|right; split; [discriminate|reflexivity]..]. }
    destruct H as [(v & Ev)|[NV H]].
    + destruct (assign_achieves s I M X v SO IU HI Ev SM) as (P & M' & A1 & A). exists P, M'. split; [|exact A].
      intros r L. unfold stmt_program. rewrite SM, Ev. apply A1, L.
    + destruct (expr_achieves s I M X SO NV IU HI) as (P & M' & A1 & A). exists P, M'. split; [|exact A].
      intros r L. rewrite H. apply A1, L.
Qed.

(** Programs. *)
Lemma prog_achieves (ss : list (stmt V)) : forall I (M : nat -> nat -> Z -> V) (X : nat -> list nat -> V), prog_ok n D O U I ss -> (forall v, In v I -> U v) ->
  (forall v, In v I -> forall r, holds (v_map (D v)) (v_st (D v)) (fun r => M r v) (X v) r) ->
  exists P M', (forall r, r < n -> spmd D O buf ss r = Some (P r)) /\ (forall r, n <= r -> P r = []) /\ execs eager P M M' /\
    (forall v, In v (map s_lhs ss) \/ In v I -> forall r, holds (v_map (D v)) (v_st (D v)) (fun r => M' r v) (run X ss v) r) /\
    (forall r v o, U v -> (In v (map s_lhs ss) -> forall g, ~ element_at (v_map (D v)) (v_st (D v)) r o g) -> M' r v o = M r v o).
Proof.
  induction ss as [|s ss IH]; intros I M X PO IU HI.
  - exists (fun _ => []), M. split; [reflexivity|]. split; [reflexivity|]. split; [apply execs_nil; reflexivity|]. split; [|reflexivity].
    intros v [[]|Hv]. apply HI, Hv.
  - inversion PO as [|? ? ? SO PO']; subst.
    destruct (stmt_achieves s I M X SO IU HI) as (P1 & M1 & A1 & A2 & A3 & A4 & A5).
    destruct (IH (s_lhs s :: I) M1 (run_stmt X s) PO') as (P2 & M2 & B1 & B2 & B3 & B4 & B5).
    { intros v [<-|Hv]; [apply (so_lhs _ _ _ _ _ _ SO)|apply IU, Hv]. } { exact A4. }
    exists (fun r => P1 r ++ P2 r), M2. split; [|split; [|split; [|split]]].
    + intros r L. unfold spmd. cbn [collectL]. rewrite A1 by exact L. cbn [bind]. unfold spmd in B1. rewrite B1 by exact L. reflexivity.
    + intros r L. rewrite A2, B2 by exact L. reflexivity.
    + exact (execs_app eager _ _ _ _ _ A3 B3).
    + intros v Hv. apply B4. cbn in Hv. cbn. tauto.
    + intros r v o Uv NE. rewrite B5; [apply A5; [exact Uv|]|exact Uv|].
      * intros ->. apply NE. left; reflexivity.
      * intros Hv. apply NE. right; exact Hv.
Qed.

Lemma quiet_stuck (s : gstate V) : (forall r, gprog s r = []) -> stuck eager s.
Proof. intros H r. unfold pstep. rewrite H. reflexivity. Qed.

Lemma prog_ends (ss : list (stmt V)) I (M : nat -> nat -> Z -> V) (X : nat -> list nat -> V) :
  prog_ok n D O U I ss -> (forall v, In v I -> U v) ->
  (forall v, In v I -> forall r, holds (v_map (D v)) (v_st (D v)) (fun r => M r v) (X v) r) ->
  exists P N, (forall r, r < n -> spmd D O buf ss r = Some (P r)) /\ (forall r, n <= r -> P r = []) /\
    forall k s, gsteps eager k {| gprog := P; gmem := M; gchan := fun _ _ => [] |} s ->
      k <= N /\
      ((exists r t, pstep eager r s = Some t) \/
       ((forall r, gprog s r = []) /\ (forall p q, gchan s p q = []) /\
        (forall v, In v (map s_lhs ss) \/ In v I -> forall r, holds (v_map (D v)) (v_st (D v)) (fun r => gmem s r v) (run X ss v) r) /\
        (forall r v o, U v -> (In v (map s_lhs ss) -> forall g, ~ element_at (v_map (D v)) (v_st (D v)) r o g) ->
           gmem s r v o = M r v o))).
Proof.
  intros PO IU HI. destruct (prog_achieves ss I M X PO IU HI) as (P & M' & A1 & A2 & A3 & A4 & A5).
  destruct (A3 {| gprog := P; gmem := M; gchan := fun _ _ => [] |} (fun _ => [])) as (N & f & G & F1 & F2 & F3).
  { intros r. cbn. rewrite app_nil_r. reflexivity. } { intros r. intros v o; reflexivity. } { intros p q; reflexivity. }
  exists P, N. split; [exact A1|]. split; [exact A2|]. intros k s Gs.
  destruct (confluence eager k _ s Gs N f G (quiet_stuck f F1)) as (L & f' & G' & Q). split; [exact L|].
  inversion G' as [|m r ? s1 ? E1 G2 Em]; subst.
  - right. destruct Q as (Q1 & Q2 & Q3). split; [|split; [|split]].
    + intros r. rewrite <- Q1. apply F1.
    + intros p q. rewrite <- Q3. apply F3.
    + intros v Hv r sb ext l g E1 E2 E3 E4. rewrite <- Q2, F2. apply (A4 v Hv r sb ext l g E1 E2 E3 E4).
    + intros r v o Uv NE. rewrite <- Q2, F2. apply A5; auto.
  - left. eauto.
Qed.
End Stmt.

(** One-dimensional blocks. *)
Lemma var_ok_1 n a z : amap_ok a -> Forall (fun p => p < n) (a_pvec a) -> length (a_dims a) = 1 -> z <> 0%Z ->
  var_ok n [0] {| v_map := a; v_st := fun _ => [z]; v_bbb := false |}.
Proof.
  intros Ha Hp L Hz. constructor; cbn [v_map v_st v_bbb]; auto; try discriminate.
  - rewrite L. reflexivity.
  - intros r sb ext E1 E2 i j Hi Hj E. rewrite (a_lx _ Ha) in E2.
    assert (Le : length ext = 1).
    { unfold map_subblock_extent in E2. destruct (sb <? _); [|discriminate]. cbn [bind] in E2.
      destruct (split_tuple sb (subblocks (a_dims a))) as [sbs|]; [|discriminate]. cbn [bind] in E2. clear -L E2.
      destruct (a_dims a) as [|d [|d' ds]]; try discriminate L.
      destruct sbs as [|x [|y sbs]]; cbn [omap2] in E2; try discriminate E2.
      - destruct (subblock_size _ _ _); [|discriminate E2]. cbn [bind] in E2. injection E2 as <-. reflexivity.
      - destruct (subblock_size _ _ _); [|discriminate E2]. cbn [bind] in E2. discriminate E2. }
    destruct ext as [|e [|? ?]]; try discriminate Le.
    inversion Hi as [|i0 ? i' ? I1 I2]; subst. inversion I2; subst. inversion Hj as [|j0 ? j' ? J1 J2]; subst. inversion J2; subst.
    cbn in E. assert (Q : ((Z.of_nat i0 - Z.of_nat j0) * z = 0)%Z) by lia. apply Z.mul_eq_0 in Q as [Q|Q]; [|contradiction]. f_equal. lia.
Qed.

(** Running a given schedule. *)
Fixpoint srun {V} eager (sched : list nat) (s : gstate V) : option (gstate V) :=
  match sched with
  | [] => Some s
  | r :: l => t <- pstep eager r s ;; srun eager l t
  end.
Lemma srun_steps {V} eager sched : forall s t : gstate V, srun eager sched s = Some t -> gsteps eager (length sched) s t.
Proof.
  induction sched as [|r l IH]; cbn; intros s t E; [injection E as <-; constructor|].
  destruct (pstep eager r s) as [u|] eqn:Q; [|discriminate]. cbn in E. econstructor; eauto.
Qed.
Lemma pstep_prog {V} eager r (s t : gstate V) r' : pstep eager r s = Some t -> r' <> r -> gprog t r' = gprog s r'.
Proof.
  unfold pstep. intros E N. destruct (gprog s r) as [|a k]; [discriminate|].
  assert (U : upd (gprog s) r k r' = gprog s r') by (unfold upd; destruct (Nat.eqb_spec r' r); congruence).
  destruct a as [src q o|src dst f o|dst q o|q|dst es|dst os f]; try (injection E as <-; exact U).
  - destruct (gchan s q r); [discriminate|]. destruct (_ =? _); [|discriminate]. cbn in E. injection E as <-. exact U.
  - destruct (eager r q (length k) || _); [|discriminate]. injection E as <-. exact U.
Qed.
Lemma srun_prog {V} eager sched r : forall s t : gstate V, srun eager sched s = Some t -> ~ In r sched -> gprog t r = gprog s r.
Proof.
  induction sched as [|q l IH]; cbn; intros s t E N; [injection E as <-; reflexivity|].
  destruct (pstep eager q s) as [u|] eqn:Q; [|discriminate]. cbn in E. rewrite (IH u t E) by tauto.
  apply (pstep_prog eager q s u r Q). intros ->. tauto.
Qed.
