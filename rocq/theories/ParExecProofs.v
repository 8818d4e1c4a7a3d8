(** The message-passing part of the parallel assignment: any schedule of
    programs "send all, copy, receive, wait" whose sends and receives
    match ends with every receive served. *)
From Coq Require Import List Arith ZArith Lia Bool Sorted.
From Verif Require Import Base Dist Domain Traversal Map ParAssign.
Import ListNotations.
Local Open Scope nat_scope.

Section Sys.
Context {V : Type} (rmem lmem0 : nat -> Z -> V).
Variables (Sd Rv : nat -> list (nat * list Z)) (Cp : nat -> list action) (m : nat -> nat -> list V).
Variable U : list nat.
Hypothesis HU : NoDup U.
Hypothesis HC : forall r a, In a (Cp r) -> exists f t, a = ACopy f t.
Hypothesis H1 : forall r, NoDup (map fst (Sd r)).
Hypothesis H2 : forall r q o, In (q, o) (Sd r) -> map (rmem r) o = m r q.
Hypothesis H3 : forall r, NoDup (map fst (Rv r)).
Hypothesis H4 : forall r p o, In (p, o) (Rv r) -> length o = length (m p r).
Hypothesis H5 : forall p q, In q (map fst (Sd p)) <-> In p (map fst (Rv q)).

Definition PP (r : nat) : list action :=
  map (fun x => ASend (fst x) (snd x)) (Sd r) ++ Cp r ++
  map (fun x => ARecv (fst x) (snd x)) (Rv r) ++ map (fun x => AWait (fst x)) (Sd r).
Hypothesis HP : forall r, ~ In r U -> PP r = [].

Definition sends (l : list action) : list nat :=
  flat_map (fun a => match a with ASend q _ => [q] | _ => [] end) l.
Definition recvs (l : list action) : list nat :=
  flat_map (fun a => match a with ARecv q _ => [q] | _ => [] end) l.
Definition phase (a : action) : nat :=
  match a with ASend _ _ => 0 | ACopy _ _ => 1 | ARecv _ _ => 2 | AWait _ => 3 end.
Definition writes (r : nat) (a : action) : list (Z * V) :=
  match a with
  | ACopy f t => combine t (map (rmem r) f)
  | ARecv p o => combine o (m p r)
  | _ => []
  end.

Lemma sends_app a b : sends (a ++ b) = sends a ++ sends b.
Proof. apply flat_map_app. Qed.
Lemma recvs_app a b : recvs (a ++ b) = recvs a ++ recvs b.
Proof. apply flat_map_app. Qed.

Lemma flat_map_nil {A B} (f : A -> list B) l : (forall a, In a l -> f a = []) -> flat_map f l = [].
Proof.
  induction l as [|a l IH]; intros H; [reflexivity|]. cbn. rewrite (H a (or_introl eq_refl)), IH; auto.
  intros; apply H; right; assumption.
Qed.

Lemma sends_PP r : sends (PP r) = map fst (Sd r).
Proof.
  unfold PP. rewrite !sends_app.
  assert (sends (Cp r) = []) as ->.
  { apply flat_map_nil. intros a Ha. destruct (HC r a Ha) as (f & t & ->). reflexivity. }
  assert (sends (map (fun x => ARecv (fst x) (snd x)) (Rv r)) = []) as ->.
  { apply flat_map_nil. intros a Ha. apply in_map_iff in Ha as (x & <- & _). reflexivity. }
  assert (sends (map (fun x => AWait (fst x)) (Sd r)) = []) as ->.
  { apply flat_map_nil. intros a Ha. apply in_map_iff in Ha as (x & <- & _). reflexivity. }
  rewrite !app_nil_r. induction (Sd r) as [|x l IH]; cbn; [reflexivity|]. f_equal. exact IH.
Qed.

Lemma recvs_PP r : recvs (PP r) = map fst (Rv r).
Proof.
  unfold PP. rewrite !recvs_app.
  assert (recvs (Cp r) = []) as ->.
  { apply flat_map_nil. intros a Ha. destruct (HC r a Ha) as (f & t & ->). reflexivity. }
  assert (recvs (map (fun x => ASend (fst x) (snd x)) (Sd r)) = []) as ->.
  { apply flat_map_nil. intros a Ha. apply in_map_iff in Ha as (x & <- & _). reflexivity. }
  assert (recvs (map (fun x => AWait (fst x)) (Sd r)) = []) as ->.
  { apply flat_map_nil. intros a Ha. apply in_map_iff in Ha as (x & <- & _). reflexivity. }
  rewrite !app_nil_r. cbn. induction (Rv r) as [|x l IH]; cbn; [reflexivity|]. f_equal. exact IH.
Qed.

Definition le_ph (a b : action) := phase a <= phase b.

Lemma SS_app l1 l2 : StronglySorted le_ph l1 -> StronglySorted le_ph l2 ->
  (forall a b, In a l1 -> In b l2 -> le_ph a b) -> StronglySorted le_ph (l1 ++ l2).
Proof.
  induction 1 as [|a l H IH F]; intros S2 A; cbn; [exact S2|]. constructor.
  - apply IH; auto. intros; apply A; auto. right; assumption.
  - rewrite Forall_forall in *. intros b Hb. apply in_app_or in Hb as [Hb|Hb]; [auto|].
    apply A; auto. left; reflexivity.
Qed.
Lemma SS_const l n : (forall a, In a l -> phase a = n) -> StronglySorted le_ph l.
Proof.
  induction l as [|a l IH]; intros H; constructor.
  - apply IH. intros; apply H; right; assumption.
  - apply Forall_forall. intros b Hb. unfold le_ph. rewrite (H a), (H b); auto; [right|left]; auto.
Qed.

Lemma sorted_PP r : StronglySorted le_ph (PP r).
Proof.
  assert (A0 : forall a, In a (map (fun x => ASend (fst x) (snd x)) (Sd r)) -> phase a = 0).
  { intros a Ha. apply in_map_iff in Ha as (x & <- & _). reflexivity. }
  assert (A1 : forall a, In a (Cp r) -> phase a = 1).
  { intros a Ha. destruct (HC r a Ha) as (f & t & ->). reflexivity. }
  assert (A2 : forall a, In a (map (fun x => ARecv (fst x) (snd x)) (Rv r)) -> phase a = 2).
  { intros a Ha. apply in_map_iff in Ha as (x & <- & _). reflexivity. }
  assert (A3 : forall a, In a (map (fun x => AWait (fst x)) (Sd r)) -> phase a = 3).
  { intros a Ha. apply in_map_iff in Ha as (x & <- & _). reflexivity. }
  unfold PP. apply SS_app; [eapply SS_const, A0| |].
  - apply SS_app; [eapply SS_const, A1| |].
    + apply SS_app; [eapply SS_const, A2|eapply SS_const, A3|].
      intros a b Ha Hb. unfold le_ph. rewrite (A2 a), (A3 b); auto.
    + intros a b Ha Hb. unfold le_ph. rewrite (A1 a); auto. apply in_app_or in Hb as [Hb|Hb];
        [rewrite (A2 b)|rewrite (A3 b)]; auto.
  - intros a b Ha Hb. unfold le_ph. rewrite (A0 a); auto. lia.
Qed.

(** Executed prefix [pre] and remaining program of every processor. *)
Record inv (n : nat) (s : state V) (pre : nat -> list action) : Prop := {
  i_split : forall r, PP r = pre r ++ prog s r;
  i_mem : forall r, lmem s r = wrs (lmem0 r) (flat_map (writes r) (pre r));
  i_chan : forall p q, chan s p q =
     (if in_dec Nat.eq_dec q (sends (pre p)) then
        if in_dec Nat.eq_dec p (recvs (pre q)) then [] else [m p q] else []);
  i_order : forall p q, In p (recvs (pre q)) -> In q (sends (pre p));
  i_count : n + list_sum (map (fun r => length (prog s r)) U) = list_sum (map (fun r => length (PP r)) U)
}.

Definition init : state V := {| prog := PP; lmem := lmem0; chan := fun _ _ => [] |}.

Lemma inv_init : inv 0 init (fun _ => []).
Proof. constructor; cbn; auto. Qed.

Lemma upd_same {A} (f : nat -> A) i x : upd f i x i = x.
Proof. unfold upd. rewrite Nat.eqb_refl. reflexivity. Qed.
Lemma upd_other {A} (f : nat -> A) i x j : j <> i -> upd f i x j = f j.
Proof. intros H. unfold upd. destruct (Nat.eqb_spec j i); [contradiction|reflexivity]. Qed.

Lemma sum_upd (f : nat -> list action) r k a l : NoDup l -> In r l -> f r = a :: k ->
  S (list_sum (map (fun i => length (upd f r k i)) l)) = list_sum (map (fun i => length (f i)) l).
Proof.
  induction 1 as [|x l Hx N IH]; intros Hin E; [destruct Hin|].
  cbn [map list_sum fold_right]. fold (list_sum (map (fun i => length (upd f r k i)) l)).
  fold (list_sum (map (fun i => length (f i)) l)).
  destruct (Nat.eq_dec x r) as [->|Ne].
  - rewrite upd_same, E. cbn [length].
    assert (map (fun i => length (upd f r k i)) l = map (fun i => length (f i)) l) as ->.
    { apply map_ext_in. intros i Hi. rewrite upd_other; [reflexivity|]. intros ->. contradiction. }
    lia.
  - rewrite upd_other by assumption. destruct Hin as [->|Hin]; [contradiction|].
    specialize (IH Hin E). lia.
Qed.

Lemma wrs_app mm l1 l2 : wrs (V:=V) mm (l1 ++ l2) = wrs (wrs mm l1) l2.
Proof. apply fold_left_app. Qed.

Lemma nodup_mid {A} (l1 l2 : list A) x : NoDup (l1 ++ x :: l2) -> ~ In x l1.
Proof. intros H X. apply NoDup_remove_2 in H. apply H, in_or_app. left; assumption. Qed.

Lemma inv_step n s t pre : inv n s pre -> step rmem s t -> exists pre', inv (S n) t pre'.
Proof.
  intros I St.
  assert (K : forall r a k, prog s r = a :: k ->
     (forall r', PP r' = upd pre r (pre r ++ [a]) r' ++ upd (prog s) r k r') /\
     S n + list_sum (map (fun i => length (upd (prog s) r k i)) U) = list_sum (map (fun r => length (PP r)) U)).
  { intros r a k E. split.
    - intros r'. rewrite (i_split _ _ _ I). destruct (Nat.eq_dec r' r) as [->|Ne].
      + rewrite !upd_same, E, <- app_assoc. reflexivity.
      + rewrite !upd_other by assumption. reflexivity.
    - assert (Hin : In r U).
      { destruct (in_dec Nat.eq_dec r U) as [i|i]; [exact i|]. exfalso.
        pose proof (i_split _ _ _ I r) as X. rewrite (HP r i), E in X.
        destruct (pre r); discriminate. }
      rewrite <- (i_count _ _ _ I), <- (sum_upd (prog s) r k a U HU Hin E). lia. }
  destruct St as [r q offs k s E|r f t k s E|r p offs k mm c s E Ec El|r q k s E Ec].
  - destruct (K _ _ _ E) as [K1 K2]. exists (upd pre r (pre r ++ [ASend q offs])).
    assert (Nq : ~ In q (sends (pre r))).
    { pose proof (H1 r) as N. rewrite <- sends_PP, (i_split _ _ _ I r), E, sends_app in N. cbn in N.
      apply nodup_mid in N. exact N. }
    assert (Iq : In (q, offs) (Sd r)).
    { assert (X : In (ASend q offs) (PP r)).
      { rewrite (i_split _ _ _ I r), E. apply in_or_app; right; left; reflexivity. }
      unfold PP in X. rewrite !in_app_iff in X. destruct X as [X|[X|[X|X]]].
      - apply in_map_iff in X as ([q' o'] & [= -> ->] & X). exact X.
      - destruct (HC _ _ X) as (? & ? & ?); discriminate.
      - apply in_map_iff in X as (? & ? & _); discriminate.
      - apply in_map_iff in X as (? & ? & _); discriminate. }
    assert (Rs : forall r', recvs (upd pre r (pre r ++ [ASend q offs]) r') = recvs (pre r')).
    { intros r'. destruct (Nat.eq_dec r' r) as [->|Ne]; [|rewrite upd_other by assumption; reflexivity].
      rewrite upd_same, recvs_app. cbn. apply app_nil_r. }
    assert (Ss : forall p q', In q' (sends (upd pre r (pre r ++ [ASend q offs]) p)) <->
                  In q' (sends (pre p)) \/ (p = r /\ q' = q)).
    { intros p q'. destruct (Nat.eq_dec p r) as [->|Ne].
      - rewrite upd_same, sends_app, in_app_iff. cbn. intuition.
      - rewrite upd_other by assumption. intuition. }
    constructor; auto.
    + intros r'. cbn [lmem]. rewrite (i_mem _ _ _ I). destruct (Nat.eq_dec r' r) as [->|Ne].
      * rewrite upd_same, flat_map_app. cbn. rewrite app_nil_r. reflexivity.
      * rewrite upd_other by assumption. reflexivity.
    + intros p q'. cbn [chan]. rewrite Rs. unfold upd2.
      destruct (Nat.eqb_spec p r) as [->|Np]; [destruct (Nat.eqb_spec q' q) as [->|Nq']|]; cbn [andb].
      * rewrite (i_chan _ _ _ I). destruct (in_dec Nat.eq_dec q (sends (pre r))); [contradiction|].
        destruct (in_dec Nat.eq_dec q (sends _)) as [i|i]; [|exfalso; apply i, Ss; auto].
        destruct (in_dec Nat.eq_dec r (recvs (pre q))) as [j|j].
        { exfalso. apply Nq, (i_order _ _ _ I), j. }
        cbn. rewrite (H2 r q offs Iq). reflexivity.
      * rewrite (i_chan _ _ _ I).
        destruct (in_dec Nat.eq_dec q' (sends (pre r))) as [i|i], (in_dec Nat.eq_dec q' (sends _)) as [j|j]; try reflexivity.
        -- exfalso. apply j, Ss. auto.
        -- exfalso. apply Ss in j as [j|[_ j]]; contradiction.
      * rewrite (i_chan _ _ _ I).
        destruct (in_dec Nat.eq_dec q' (sends (pre p))) as [i|i], (in_dec Nat.eq_dec q' (sends _)) as [j|j]; try reflexivity.
        -- exfalso. apply j, Ss. auto.
        -- exfalso. apply Ss in j as [j|[j _]]; contradiction.
    + intros p q'. rewrite Rs. intros X. apply Ss. left. apply (i_order _ _ _ I), X.
  - destruct (K _ _ _ E) as [K1 K2]. exists (upd pre r (pre r ++ [ACopy f t])).
    assert (Rs : forall r', recvs (upd pre r (pre r ++ [ACopy f t]) r') = recvs (pre r')).
    { intros r'. destruct (Nat.eq_dec r' r) as [->|Ne]; [|rewrite upd_other by assumption; reflexivity].
      rewrite upd_same, recvs_app. cbn. apply app_nil_r. }
    assert (Ss : forall r', sends (upd pre r (pre r ++ [ACopy f t]) r') = sends (pre r')).
    { intros r'. destruct (Nat.eq_dec r' r) as [->|Ne]; [|rewrite upd_other by assumption; reflexivity].
      rewrite upd_same, sends_app. cbn. apply app_nil_r. }
    constructor; auto.
    + intros r'. cbn [lmem]. destruct (Nat.eq_dec r' r) as [->|Ne].
      * rewrite !upd_same, flat_map_app, wrs_app, (i_mem _ _ _ I). cbn. rewrite app_nil_r. reflexivity.
      * rewrite !upd_other by assumption. apply (i_mem _ _ _ I).
    + intros p q. rewrite Rs, Ss. apply (i_chan _ _ _ I).
    + intros p q. rewrite Rs, Ss. apply (i_order _ _ _ I).
  - destruct (K _ _ _ E) as [K1 K2]. exists (upd pre r (pre r ++ [ARecv p offs])).
    assert (Np : ~ In p (recvs (pre r))).
    { pose proof (H3 r) as N. rewrite <- recvs_PP, (i_split _ _ _ I r), E, recvs_app in N. cbn in N.
      apply nodup_mid in N. exact N. }
    assert (Cm : mm = m p r /\ c = [] /\ In r (sends (pre p))).
    { rewrite (i_chan _ _ _ I) in Ec. destruct (in_dec Nat.eq_dec r (sends (pre p))); [|discriminate].
      destruct (in_dec Nat.eq_dec p (recvs (pre r))); [contradiction|]. injection Ec as <- <-. auto. }
    destruct Cm as (-> & -> & Hs).
    assert (Ss : forall r', sends (upd pre r (pre r ++ [ARecv p offs]) r') = sends (pre r')).
    { intros r'. destruct (Nat.eq_dec r' r) as [->|Ne]; [|rewrite upd_other by assumption; reflexivity].
      rewrite upd_same, sends_app. cbn. apply app_nil_r. }
    assert (Rs : forall q p', In p' (recvs (upd pre r (pre r ++ [ARecv p offs]) q)) <->
                  In p' (recvs (pre q)) \/ (q = r /\ p' = p)).
    { intros q p'. destruct (Nat.eq_dec q r) as [->|Ne].
      - rewrite upd_same, recvs_app, in_app_iff. cbn. intuition.
      - rewrite upd_other by assumption. intuition. }
    constructor; auto.
    + intros r'. cbn [lmem]. destruct (Nat.eq_dec r' r) as [->|Ne].
      * rewrite !upd_same, flat_map_app, wrs_app, (i_mem _ _ _ I). cbn. rewrite app_nil_r. reflexivity.
      * rewrite !upd_other by assumption. apply (i_mem _ _ _ I).
    + intros p' q. cbn [chan]. rewrite Ss. unfold upd2.
      destruct (Nat.eqb_spec p' p) as [->|Np']; [destruct (Nat.eqb_spec q r) as [->|Nq]|]; cbn [andb].
      * destruct (in_dec Nat.eq_dec r (sends (pre p))); [|reflexivity].
        destruct (in_dec Nat.eq_dec p (recvs _)) as [j|j]; [reflexivity|]. exfalso. apply j, Rs. auto.
      * rewrite (i_chan _ _ _ I). destruct (in_dec Nat.eq_dec q (sends (pre p))); [|reflexivity].
        destruct (in_dec Nat.eq_dec p (recvs (pre q))) as [i'|i'], (in_dec Nat.eq_dec p (recvs _)) as [j|j]; try reflexivity.
        -- exfalso. apply j, Rs. auto.
        -- exfalso. apply Rs in j as [j|[j _]]; contradiction.
      * rewrite (i_chan _ _ _ I). destruct (in_dec Nat.eq_dec q (sends (pre p'))); [|reflexivity].
        destruct (in_dec Nat.eq_dec p' (recvs (pre q))) as [i'|i'], (in_dec Nat.eq_dec p' (recvs _)) as [j|j]; try reflexivity.
        -- exfalso. apply j, Rs. auto.
        -- exfalso. apply Rs in j as [j|[_ j]]; contradiction.
    + intros p' q. rewrite Ss. intros X. apply Rs in X as [X|[-> ->]]; [apply (i_order _ _ _ I), X|exact Hs].
  - destruct (K _ _ _ E) as [K1 K2]. exists (upd pre r (pre r ++ [AWait q])).
    assert (Rs : forall r', recvs (upd pre r (pre r ++ [AWait q]) r') = recvs (pre r')).
    { intros r'. destruct (Nat.eq_dec r' r) as [->|Ne]; [|rewrite upd_other by assumption; reflexivity].
      rewrite upd_same, recvs_app. cbn. apply app_nil_r. }
    assert (Ss : forall r', sends (upd pre r (pre r ++ [AWait q]) r') = sends (pre r')).
    { intros r'. destruct (Nat.eq_dec r' r) as [->|Ne]; [|rewrite upd_other by assumption; reflexivity].
      rewrite upd_same, sends_app. cbn. apply app_nil_r. }
    constructor; auto.
    + intros r'. cbn [lmem]. rewrite (i_mem _ _ _ I). destruct (Nat.eq_dec r' r) as [->|Ne].
      * rewrite upd_same, flat_map_app. cbn. rewrite app_nil_r. reflexivity.
      * rewrite upd_other by assumption. reflexivity.
    + intros p q'. rewrite Rs, Ss. apply (i_chan _ _ _ I).
    + intros p q'. rewrite Rs, Ss. apply (i_order _ _ _ I).
Qed.

Lemma inv_steps n s : steps rmem n init s -> exists pre, inv n s pre.
Proof.
  intros H. remember init as i0 eqn:E0. induction H as [i|n i t u H IH St]; subst.
  - eexists. apply inv_init.
  - destruct (IH eq_refl) as (pre & I). eapply inv_step; eassumption.
Qed.

Definition headph (l : list action) (n : nat) : bool :=
  match l with a :: _ => phase a =? n | [] => false end.

Lemma sorted_rest r pre k a b : PP r = pre ++ a :: k -> In b (a :: k) -> phase a <= phase b.
Proof.
  intros E Hb. pose proof (sorted_PP r) as S. rewrite E in S. clear E.
  induction pre as [|x pre IH]; cbn in S; inversion S as [|? ? S' F]; subst; auto.
  destruct Hb as [->|Hb]; [lia|]. rewrite Forall_forall in F. apply F, Hb.
Qed.

Lemma progress n s pre : inv n s pre -> (exists t, step rmem s t) \/ (forall r, prog s r = []).
Proof.
  intros I.
  assert (D : forall k, {r | headph (prog s r) k = true} + {forall r, headph (prog s r) k = false}).
  { intros k. destruct (List.existsb (fun r => headph (prog s r) k) U) eqn:X.
    - assert (Z : {r | In r U /\ headph (prog s r) k = true}).
      { clear -X. induction U as [|u l IH]; cbn in X; [discriminate|].
        destruct (headph (prog s u) k) eqn:Y; [exists u; cbn; auto|].
        destruct (IH X) as (r & ? & ?). exists r. cbn; auto. }
      destruct Z as (r & _ & Z). left; exists r; exact Z.
    - right. intros r. destruct (headph (prog s r) k) eqn:Y; [|reflexivity].
      destruct (in_dec Nat.eq_dec r U) as [i|i].
      + rewrite <- X. symmetry. apply existsb_exists. eauto.
      + pose proof (i_split _ _ _ I r) as Q. rewrite (HP r i) in Q.
        destruct (prog s r); [discriminate|]. destruct (pre r); discriminate. }
  destruct (D 0) as [(r & E)|D0].
  { left. destruct (prog s r) as [|[q o|f t|p o|q] k] eqn:P; try discriminate. eexists. eapply step_send; eassumption. }
  destruct (D 1) as [(r & E)|D1].
  { left. destruct (prog s r) as [|[q o|f t|p o|q] k] eqn:P; try discriminate. eexists. eapply step_copy; eassumption. }
  assert (AS : forall p, sends (pre p) = map fst (Sd p)).
  { intros p. rewrite <- sends_PP, (i_split _ _ _ I p), sends_app.
    assert (sends (prog s p) = []) as ->; [|rewrite app_nil_r; reflexivity].
    destruct (prog s p) as [|a k] eqn:P; [reflexivity|]. apply flat_map_nil. intros b Hb.
    pose proof (i_split _ _ _ I p) as Q. rewrite P in Q.
    pose proof (sorted_rest p _ _ _ b Q Hb) as L.
    specialize (D0 p). specialize (D1 p). rewrite P in D0, D1. cbn in D0, D1.
    apply Nat.eqb_neq in D0, D1. destruct b; cbn in *; try reflexivity. lia. }
  destruct (D 2) as [(r & E)|D2].
  { left. destruct (prog s r) as [|[q o|f t|p o|q] k] eqn:P; try discriminate.
    assert (Ip : In (p, o) (Rv r)).
    { assert (X : In (ARecv p o) (PP r)).
      { rewrite (i_split _ _ _ I r), P. apply in_or_app; right; left; reflexivity. }
      unfold PP in X. rewrite !in_app_iff in X. destruct X as [X|[X|[X|X]]].
      - apply in_map_iff in X as (? & ? & _); discriminate.
      - destruct (HC _ _ X) as (? & ? & ?); discriminate.
      - apply in_map_iff in X as ([q' o'] & [= -> ->] & X). exact X.
      - apply in_map_iff in X as (? & ? & _); discriminate. }
    assert (Np : ~ In p (recvs (pre r))).
    { pose proof (H3 r) as N. rewrite <- recvs_PP, (i_split _ _ _ I r), P, recvs_app in N. cbn in N.
      apply nodup_mid in N. exact N. }
    eexists. eapply (step_recv rmem r p o k (m p r) []); [exact P| |symmetry; apply H4, Ip].
    rewrite (i_chan _ _ _ I). rewrite AS.
    destruct (in_dec Nat.eq_dec r (map fst (Sd p))) as [i|i].
    - destruct (in_dec Nat.eq_dec p (recvs (pre r))); [contradiction|reflexivity].
    - exfalso. apply i, H5. apply in_map_iff. exists (p, o). auto. }
  assert (AR : forall q, recvs (pre q) = map fst (Rv q)).
  { intros p. rewrite <- recvs_PP, (i_split _ _ _ I p), recvs_app.
    assert (recvs (prog s p) = []) as ->; [|rewrite app_nil_r; reflexivity].
    destruct (prog s p) as [|a k] eqn:P; [reflexivity|]. apply flat_map_nil. intros b Hb.
    pose proof (i_split _ _ _ I p) as Q. rewrite P in Q.
    pose proof (sorted_rest p _ _ _ b Q Hb) as L.
    specialize (D0 p). specialize (D1 p). specialize (D2 p). rewrite P in D0, D1, D2. cbn in D0, D1, D2.
    apply Nat.eqb_neq in D0, D1, D2. destruct b; cbn in *; try reflexivity. lia. }
  destruct (D 3) as [(r & E)|D3].
  { left. destruct (prog s r) as [|[q o|f t|p o|q] k] eqn:P; try discriminate.
    eexists. eapply step_wait; [exact P|].
    rewrite (i_chan _ _ _ I), AS, AR.
    destruct (in_dec Nat.eq_dec q (map fst (Sd r))) as [i|i]; [|reflexivity].
    destruct (in_dec Nat.eq_dec r (map fst (Rv q))) as [j|j]; [reflexivity|]. exfalso. apply j, H5, i. }
  right. intros r. specialize (D0 r). specialize (D1 r). specialize (D2 r). specialize (D3 r).
  destruct (prog s r) as [|a k]; [reflexivity|]. destruct a; discriminate.
Qed.

Lemma sys_lemma n s : steps rmem n init s ->
  n <= list_sum (map (fun r => length (PP r)) U) /\
  (exists pre, forall r, (exists suf, PP r = pre r ++ suf) /\
     lmem s r = wrs (lmem0 r) (flat_map (writes r) (pre r))) /\
  ((exists t, step rmem s t) \/
   ((forall r, prog s r = []) /\ (forall p q, chan s p q = []) /\
    (forall r, lmem s r = wrs (lmem0 r) (flat_map (writes r) (PP r))))).
Proof.
  intros H. destruct (inv_steps n s H) as (pre & I). split; [|split].
  - rewrite <- (i_count _ _ _ I). lia.
  - exists pre. intros r. split; [exists (prog s r); apply (i_split _ _ _ I)|apply (i_mem _ _ _ I)].
  - destruct (progress n s pre I) as [P|P]; [left; exact P|right].
    assert (Q : forall r, pre r = PP r).
    { intros r. rewrite (i_split _ _ _ I r), P, app_nil_r. reflexivity. }
    split; [exact P|]. split.
    + intros p q. rewrite (i_chan _ _ _ I), !Q, sends_PP, recvs_PP.
      destruct (in_dec Nat.eq_dec q (map fst (Sd p))) as [i|i]; [|reflexivity].
      destruct (in_dec Nat.eq_dec p (map fst (Rv q))) as [j|j]; [reflexivity|]. exfalso. apply j, H5, i.
    + intros r. rewrite (i_mem _ _ _ I), Q. reflexivity.
Qed.
End Sys.

(** ** Results of a list of writes *)
Lemma wrs_other {V} l : forall (mm : Z -> V) x, (forall v, ~ In (x, v) l) -> wrs mm l x = mm x.
Proof.
  induction l as [|[a v] l IH]; intros mm x H; cbn; [reflexivity|].
  change (fold_left wr l (wr mm (a, v)) x) with (wrs (wr mm (a, v)) l x). rewrite IH.
  - unfold wr. cbn. destruct (Z.eqb_spec x a) as [->|]; [|reflexivity]. exfalso. apply (H v). left; reflexivity.
  - intros w Hw. apply (H w). right; assumption.
Qed.

Lemma wrs_hit {V} l : forall (mm : Z -> V) x w, (exists v, In (x, v) l) ->
  (forall v, In (x, v) l -> v = w) -> wrs mm l x = w.
Proof.
  induction l as [|[a v] l IH]; intros mm x w (v0 & Hv) H; [destruct Hv|]. cbn.
  change (fold_left wr l (wr mm (a, v)) x) with (wrs (wr mm (a, v)) l x).
  assert (D : (exists u, In (x, u) l) \/ (forall u, ~ In (x, u) l)).
  { clear. induction l as [|[b u] l IH]; [right; intros u []|].
    destruct IH as [(u' & IH)|IH]; [left; exists u'; right; assumption|].
    destruct (Z.eq_dec b x) as [->|Ne]; [left; exists u; left; reflexivity|].
    right. intros u' [[= <- _]|X]; [contradiction|]. exact (IH u' X). }
  destruct D as [D|D].
  - apply IH; auto. intros u Hu. apply H. right; assumption.
  - rewrite wrs_other by assumption. destruct Hv as [[= -> ->]|Hv]; [|exfalso; exact (D _ Hv)].
    unfold wr. cbn. rewrite Z.eqb_refl. apply H. left; reflexivity.
Qed.
