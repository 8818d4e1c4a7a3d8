(** Proofs about reference counting. *)
From Coq Require Import ZArith List Lia Bool Arith.
From Verif Require Import Base Refcount.
Import ListNotations.
Local Open Scope nat_scope.

Fixpoint tot {A} (f : A -> nat) (l : list A) : nat := match l with [] => 0 | x :: r => f x + tot f r end.
Lemma tot_map {A B} (f : B -> nat) (g : A -> B) l : tot f (map g l) = tot (fun x => f (g x)) l.
Proof. induction l as [|x l IH]; cbn; [reflexivity|]. rewrite IH. reflexivity. Qed.
Lemma tot_app {A} (f : A -> nat) l r : tot f (l ++ r) = tot f l + tot f r.
Proof. induction l as [|x l IH]; cbn; [reflexivity|]. rewrite IH. lia. Qed.
Lemma tot_cons {A} (f : A -> nat) x r : tot f (x :: r) = f x + tot f r.
Proof. reflexivity. Qed.
Lemma tot_lset {A} (f : A -> nat) l : forall i x y, nth_error l i = Some x -> tot f (lset l i y) + f x = tot f l + f y.
Proof.
  induction l as [|z l IH]; intros [|i] x y H; try discriminate; cbn in *.
  - injection H as ->. lia.
  - specialize (IH i x y H). lia.
Qed.
Lemma tot_ge {A} (f : A -> nat) l i x : nth_error l i = Some x -> f x <= tot f l.
Proof.
  revert i. induction l as [|z l IH]; intros [|i] H; try discriminate; cbn in *.
  - injection H as ->. lia.
  - specialize (IH i H). lia.
Qed.
Lemma tot_pos {A} (f : A -> nat) l : 0 < tot f l -> exists i x, nth_error l i = Some x /\ 0 < f x.
Proof.
  induction l as [|z l IH]; cbn; [lia|]. intros H. destruct (Nat.eq_dec (f z) 0) as [E|E].
  - destruct IH as (i & x & N & P); [lia|]. exists (S i), x. auto.
  - exists 0, z. split; [reflexivity|lia].
Qed.
Lemma tot_0 {A} (f : A -> nat) l : (forall x, In x l -> f x = 0) -> tot f l = 0.
Proof. induction l as [|z l IH]; cbn; [reflexivity|]. intros H. rewrite (H z), IH; auto. Qed.

Definition one (a b : nat) : nat := if Nat.eqb a b then 1 else 0.
Lemma one_same a : one a a = 1. Proof. unfold one. rewrite Nat.eqb_refl. reflexivity. Qed.
Lemma one_cases a b : (a = b /\ one a b = 1) \/ (a <> b /\ one a b = 0).
Proof. unfold one. destruct (Nat.eqb_spec a b); auto. Qed.
Definition sl (a : nat) (s : slot) : nat := match s with Some (Some b) => one a b | _ => 0 end.
Definition dc (a : nat) (m : micro) : nat := match m with Dec b => one a b | Del _ => 0 end.
Definition dl (a : nat) (m : micro) : nat := match m with Del b => one a b | Dec _ => 0 end.
Definition tw (a : nat) (x : thread) : nat := tot (sl a) (slots x) + tot (dc a) (pend x).
Definition td (a : nat) (x : thread) : nat := tot (dl a) (pend x).
Definition ow (a : nat) (o : obj) : nat := if live o then tot (one a) (kids o) else 0.
Definition nref (s : state) (a : nat) : nat := tot (tw a) (threads s) + tot (ow a) (heap s).
Definition ndel (s : state) (a : nat) : nat := tot (td a) (threads s).

Definition points (x : thread) (k a : nat) : Prop := slot_at x k = Some (Some a).
Definition fin_ok (h : list obj) (x : thread) : Prop :=
  match fin x with
  | None => True
  | Some (FLoad n k (LSlot j)) => slot_at x k = Some None /\ exists p, slot_at x j = Some p /\ (n = false -> p <> None)
  | Some (FLoad n k (LKid a i)) => slot_at x k = Some None /\ (exists j, points x j a) /\ exists o, nth_error h a = Some o /\ i < length (kids o)
  | Some (FSet k a) => slot_at x k = Some None /\ exists j, points x j a
  | Some (FNull k) | Some (FNew k) => slot_at x k = Some None
  | Some (FKids k js) => exists b, points x k b /\ forall j, In j js -> exists a, points x j a /\ a < b
  end.

Definition obj_ok (r d : nat) (o : option obj) : Prop :=
  match o with
  | Some o => if live o then cnt o = Z.of_nat r /\ d = (if Nat.eqb r 0 then 1 else 0) else r = 0 /\ d = 0
  | None => r = 0 /\ d = 0
  end.
Record good (s : state) : Prop := {
  g_obj : forall a, obj_ok (nref s a) (ndel s a) (nth_error (heap s) a);
  g_fin : forall t x, nth_error (threads s) t = Some x -> fin_ok (heap s) x;
  g_kids : forall b o, nth_error (heap s) b = Some o -> forall a, In a (kids o) -> a < b;
  g_nodup : NoDup (freed s);
  g_freed : forall a, In a (freed s) <-> exists o, nth_error (heap s) a = Some o /\ live o = false
}.

Lemma slot_nth x k p : slot_at x k = Some p -> nth_error (slots x) k = Some (Some p).
Proof.
  unfold slot_at. intros H. destruct (nth_error (slots x) k) as [y|] eqn:E.
  - pose proof (nth_error_nth (slots x) k (None : slot) E) as E'. unfold slot in *. congruence.
  - apply nth_error_None in E. rewrite nth_overflow in H by exact E. discriminate.
Qed.
Lemma nth_slot x k p : nth_error (slots x) k = Some p -> slot_at x k = p.
Proof. intros H. unfold slot_at. apply nth_error_nth. exact H. Qed.

Lemma refd_live s a : good s -> 0 < nref s a -> exists o, nth_error (heap s) a = Some o /\ live o = true /\ cnt o = Z.of_nat (nref s a).
Proof.
  intros G H. pose proof (g_obj _ G a) as O. unfold obj_ok in O. destruct (nth_error (heap s) a) as [o|]; [|lia].
  destruct (live o) eqn:L; [|lia]. exists o. tauto.
Qed.
Lemma points_ref s t x k a : nth_error (threads s) t = Some x -> points x k a -> 0 < nref s a.
Proof.
  intros T P. apply slot_nth in P. pose proof (tot_ge (sl a) _ _ _ P) as A1. cbn [sl] in A1. rewrite one_same in A1.
  pose proof (tot_ge (tw a) _ _ _ T) as A2. unfold nref. unfold tw in A2 at 1. lia.
Qed.
Lemma dec_ref s t x a r : nth_error (threads s) t = Some x -> pend x = Dec a :: r -> 0 < nref s a.
Proof.
  intros T P. pose proof (tot_ge (tw a) _ _ _ T) as A2. unfold nref. unfold tw in A2 at 1. rewrite P, tot_cons in A2. cbn [dc] in A2. rewrite one_same in A2. lia.
Qed.
Lemma kid_ref s b o a : nth_error (heap s) b = Some o -> live o = true -> In a (kids o) -> 0 < nref s a.
Proof.
  intros H L I. pose proof (tot_ge (ow a) _ _ _ H) as A. unfold nref. unfold ow in A at 1. rewrite L in A.
  apply In_nth_error in I as (n & I). pose proof (tot_ge (one a) _ _ _ I) as A1. rewrite one_same in A1. lia.
Qed.

Lemma live_some s a o : nth_error (heap s) a = Some o -> live o = true -> live_obj s a = Some o.
Proof. intros H L. unfold live_obj, obj_of. rewrite H. cbn [bind]. rewrite L. reflexivity. Qed.

Lemma nth_lset {A} (l : list A) i y j : i < length l -> nth_error (lset l i y) j = if Nat.eqb i j then Some y else nth_error l j.
Proof.
  revert i j. induction l as [|z l IH]; intros i j H; cbn in H; [lia|]. destruct i, j; cbn; try reflexivity. apply IH. lia.
Qed.
Lemma nth_lt {A} (l : list A) i x : nth_error l i = Some x -> i < length l.
Proof. intros H. apply nth_error_Some. congruence. Qed.

(** Effects on the counts. *)
Lemma nref_thread s t x x' a : nth_error (threads s) t = Some x -> nref (set_thread s t x') a + tw a x = nref s a + tw a x'.
Proof. intros H. unfold nref, set_thread. cbn [threads heap]. pose proof (tot_lset (tw a) _ _ _ x' H). lia. Qed.
Lemma ndel_thread s t x x' a : nth_error (threads s) t = Some x -> ndel (set_thread s t x') a + td a x = ndel s a + td a x'.
Proof. intros H. unfold ndel, set_thread. cbn [threads]. exact (tot_lset (td a) _ _ _ x' H). Qed.
Lemma nref_obj s b o o' a : nth_error (heap s) b = Some o -> nref (set_obj s b o') a + ow a o = nref s a + ow a o'.
Proof. intros H. unfold nref, set_obj. cbn [threads heap]. pose proof (tot_lset (ow a) _ _ _ o' H). lia. Qed.

Lemma fin_ok_heap h h' x : (forall a o, nth_error h a = Some o -> exists o', nth_error h' a = Some o' /\ length (kids o) <= length (kids o')) ->
  fin_ok h x -> fin_ok h' x.
Proof.
  intros H. unfold fin_ok. destruct (fin x) as [[n k [j|a i]|k a|k|k|k js]|]; auto.
  intros (A & B & o & C & D). split; [exact A|]. split; [exact B|]. destruct (H a o C) as (o' & C' & L). exists o'. split; [exact C'|lia].
Qed.
Lemma slot_lset x k p q f j : k < length (slots x) -> slot_at (mkt (lset (slots x) k p) q f) j = if Nat.eqb k j then p else slot_at x j.
Proof.
  intros H. unfold slot_at. cbn [slots]. rewrite <- !nth_default_eq. unfold nth_default. rewrite nth_lset by exact H. destruct (Nat.eqb k j); reflexivity.
Qed.
Lemma tot_slots_set x k p a : k < length (slots x) -> tot (sl a) (lset (slots x) k p) + sl a (slot_at x k) = tot (sl a) (slots x) + sl a p.
Proof.
  intros H. apply nth_error_Some in H. destruct (nth_error (slots x) k) as [q|] eqn:E; [|congruence]. rewrite (nth_slot _ _ _ E). exact (tot_lset (sl a) _ _ _ p E).
Qed.
Lemma slot_lt x k p : slot_at x k = Some p -> k < length (slots x).
Proof. intros H. apply slot_nth in H. exact (nth_lt _ _ _ H). Qed.

Lemma init_good n w : good (init n w).
Proof.
  assert (T : forall t x, nth_error (threads (init n w)) t = Some x -> x = mkt (repeat None w) [] None).
  { intros t x H. apply nth_error_In, repeat_spec in H. exact H. }
  assert (R : forall a, nref (init n w) a = 0).
  { intros a. unfold nref. cbn [heap init]. replace (tot (ow a) []) with 0 by reflexivity. rewrite Nat.add_0_r. apply tot_0.
    intros x H. apply repeat_spec in H. subst x. unfold tw. cbn [slots pend]. rewrite tot_0; [reflexivity|]. intros s Hs. apply repeat_spec in Hs. subst s. reflexivity. }
  assert (D : forall a, ndel (init n w) a = 0).
  { intros a. unfold ndel. apply tot_0. intros x H. apply repeat_spec in H. subst x. reflexivity. }
  constructor.
  - intros a. rewrite R, D. destruct a; cbn; auto.
  - intros t x H. rewrite (T _ _ H). exact I.
  - intros [|b] o H; discriminate.
  - constructor.
  - intros a. split; [intros []|]. intros (o & H & _). destruct a; discriminate.
Qed.

(** A thread changes without touching the heap. *)
Lemma good_thread s t x x' : good s -> nth_error (threads s) t = Some x ->
  (forall a, tw a x' = tw a x) -> (forall a, td a x' = td a x) -> fin_ok (heap s) x' -> good (set_thread s t x').
Proof.
  intros G T W D F. pose proof (nth_lt _ _ _ T) as L. constructor.
  - intros a. pose proof (nref_thread s t x x' a T). pose proof (ndel_thread s t x x' a T). rewrite W in *. rewrite D in *.
    replace (nref (set_thread s t x') a) with (nref s a) by lia. replace (ndel (set_thread s t x') a) with (ndel s a) by lia. exact (g_obj _ G a).
  - intros u y. cbn [set_thread threads heap]. rewrite nth_lset by exact L. destruct (Nat.eqb_spec t u) as [->|]; [intros E; injection E as <-; exact F|apply G].
  - exact (g_kids _ G).
  - exact (g_nodup _ G).
  - exact (g_freed _ G).
Qed.

(** Incrementing [a] and giving the new reference to the thread. *)
Lemma good_inc s t x x' a o : good s -> nth_error (threads s) t = Some x -> nth_error (heap s) a = Some o -> live o = true ->
  0 < nref s a ->
  (forall b, tw b x' = tw b x + one b a) -> (forall b, td b x' = td b x) -> fin_ok (heap s) x' ->
  good (set_thread (set_obj s a (mkobj (cnt o + 1) true (kids o))) t x').
Proof.
  intros G T O Li R W D F. pose proof (nth_lt _ _ _ T) as L. pose proof (nth_lt _ _ _ O) as La. set (s1 := set_obj s a _).
  assert (H1 : forall b o', nth_error (heap s1) b = Some o' -> exists o2, nth_error (heap s) b = Some o2 /\ kids o' = kids o2 /\ live o' = live o2 /\ (b = a -> cnt o' = (cnt o2 + 1)%Z) /\ (b <> a -> cnt o' = cnt o2)).
  { intros b o'. unfold s1, set_obj. cbn [heap]. rewrite nth_lset by exact La. destruct (Nat.eqb_spec a b) as [<-|N].
    - intros E. injection E as <-. exists o. cbn. split; [exact O|]. repeat split; auto. congruence.
    - intros E. exists o'. repeat split; auto. congruence. }
  assert (N1 : forall b, nref s1 b = nref s b).
  { intros b. pose proof (nref_obj s a o (mkobj (cnt o + 1) true (kids o)) b O) as Q. fold s1 in Q. unfold ow in Q. cbn [live kids] in Q. rewrite Li in Q. lia. }
  assert (HF : forall b o2, nth_error (heap s) b = Some o2 -> exists o', nth_error (heap s1) b = Some o' /\ length (kids o2) <= length (kids o')).
  { intros b o2 E. unfold s1, set_obj. cbn [heap]. rewrite nth_lset by exact La. destruct (Nat.eqb_spec a b) as [<-|N].
    - eexists. split; [reflexivity|]. cbn. assert (o2 = o) as -> by congruence. lia.
    - exists o2. auto. }
  constructor.
  - intros b. assert (N2 : nref (set_thread s1 t x') b = nref s b + one b a).
    { pose proof (nref_thread s1 t x x' b T) as Q. rewrite N1, W in Q. lia. }
    assert (D2 : ndel (set_thread s1 t x') b = ndel s b).
    { pose proof (ndel_thread s1 t x x' b T) as Q. rewrite D in Q. unfold ndel at 2 in Q. unfold s1, set_obj in Q. cbn [threads] in Q. fold (ndel s b) in Q. unfold s1, set_obj. lia. }
    rewrite N2, D2. pose proof (g_obj _ G b) as Q. cbn [set_thread heap]. unfold s1, set_obj. cbn [heap]. rewrite nth_lset by exact La.
    destruct (Nat.eqb_spec a b) as [<-|N].
    + rewrite O in Q. unfold obj_ok in *. cbn [live cnt]. rewrite Li in Q. rewrite one_same. destruct Q as [Q1 Q2].
      destruct (Nat.eqb_spec (nref s a) 0); [lia|]. destruct (Nat.eqb_spec (nref s a + 1) 0); lia.
    + destruct (one_cases b a) as [[? _]|[_ ->]]; [congruence|]. rewrite Nat.add_0_r. exact Q.
  - intros u y. cbn [set_thread threads heap]. rewrite nth_lset by exact L. destruct (Nat.eqb_spec t u) as [->|].
    + intros E; injection E as <-. eapply fin_ok_heap; [|exact F]. exact HF.
    + intros E. eapply fin_ok_heap; [|exact (g_fin _ G u y E)]. exact HF.
  - intros b o' E c I. destruct (H1 b o' E) as (o2 & E2 & K & _). rewrite K in I. exact (g_kids _ G b o2 E2 c I).
  - exact (g_nodup _ G).
  - intros b. change (freed (set_thread _ t x')) with (freed s). rewrite (g_freed _ G b). cbn [set_thread heap]. split.
    + intros (o2 & E & Lo). destruct (Nat.eq_dec b a) as [->|N]; [congruence|]. exists o2. split; [|exact Lo].
      unfold s1, set_obj. cbn [heap]. rewrite nth_lset by exact La. destruct (Nat.eqb_spec a b); [congruence|exact E].
    + intros (o' & E & Lo). destruct (H1 b o' E) as (o2 & E2 & _ & Lq & _). exists o2. split; [exact E2|congruence].
Qed.

(** Allocating. *)
Lemma good_new s t x x' : good s -> nth_error (threads s) t = Some x ->
  (forall b, tw b x' = tw b x + one b (length (heap s))) -> (forall b, td b x' = td b x) -> fin x' = None ->
  good (set_thread (mk (heap s ++ [mkobj 1 true []]) (threads s) (freed s)) t x').
Proof.
  intros G T W D F. pose proof (nth_lt _ _ _ T) as L. set (h := heap s ++ [mkobj 1 true []]).
  assert (HN : forall b, nth_error h b = if Nat.eqb b (length (heap s)) then Some (mkobj 1 true []) else nth_error (heap s) b).
  { intros b. unfold h. destruct (Nat.eqb_spec b (length (heap s))) as [->|N].
    - rewrite nth_error_app2, Nat.sub_diag by lia. reflexivity.
    - destruct (Nat.lt_ge_cases b (length (heap s))) as [Lb|Lb]; [apply nth_error_app1; exact Lb|].
      rewrite (proj2 (nth_error_None (heap s) b)) by lia. apply nth_error_None. rewrite app_length. cbn. lia. }
  constructor.
  - intros b. cbn [set_thread heap]. rewrite HN.
    assert (N2 : nref (set_thread (mk h (threads s) (freed s)) t x') b = nref s b + one b (length (heap s))).
    { unfold nref, set_thread. cbn [threads heap]. pose proof (tot_lset (tw b) _ _ _ x' T) as Q. rewrite W in Q. unfold h. rewrite tot_app. cbn. lia. }
    assert (D2 : ndel (set_thread (mk h (threads s) (freed s)) t x') b = ndel s b).
    { unfold ndel, set_thread. cbn [threads]. pose proof (tot_lset (td b) _ _ _ x' T) as Q. rewrite D in Q. lia. }
    rewrite N2, D2. pose proof (g_obj _ G b) as Q. destruct (Nat.eqb_spec b (length (heap s))) as [->|N].
    + rewrite (proj2 (nth_error_None (heap s) (length (heap s)))) in Q by lia. cbn [obj_ok] in Q. destruct Q as [-> ->]. rewrite one_same. cbn. auto.
    + destruct (one_cases b (length (heap s))) as [[? _]|[_ ->]]; [congruence|]. rewrite Nat.add_0_r. exact Q.
  - assert (HF : forall b o2, nth_error (heap s) b = Some o2 -> exists o', nth_error h b = Some o' /\ length (kids o2) <= length (kids o')).
    { intros b o2 E. exists o2. split; [|lia]. rewrite HN. destruct (Nat.eqb_spec b (length (heap s))) as [->|]; [|exact E]. apply nth_lt in E. lia. }
    intros u y. cbn [set_thread threads heap]. rewrite nth_lset by exact L. destruct (Nat.eqb_spec t u) as [->|].
    + intros E; injection E as <-. unfold fin_ok. rewrite F. exact I.
    + intros E. eapply fin_ok_heap; [|exact (g_fin _ G u y E)]. exact HF.
  - intros b o'. cbn [set_thread heap]. rewrite HN. destruct (Nat.eqb b (length (heap s))); [intros E; injection E as <-; intros c []|apply G].
  - exact (g_nodup _ G).
  - intros b. change (freed (set_thread _ t x')) with (freed s). rewrite (g_freed _ G b). cbn [set_thread heap]. split; intros (o & E & Lo); exists o.
    + split; [|exact Lo]. rewrite HN. destruct (Nat.eqb_spec b (length (heap s))) as [->|]; [apply nth_lt in E; lia|exact E].
    + rewrite HN in E. destruct (Nat.eqb_spec b (length (heap s))) as [->|]; [injection E as <-; discriminate Lo|]. auto.
Qed.

Lemma micro_good s t x m r : good s -> nth_error (threads s) t = Some x -> pend x = m :: r ->
  exists s', run_micro s t x m r = Some s' /\ good s'.
Proof.
  intros G T P. pose proof (nth_lt _ _ _ T) as L. destruct m as [a|a].
  - pose proof (dec_ref s t x a r T P) as R. destruct (refd_live s a G R) as (o & O & Li & C). pose proof (nth_lt _ _ _ O) as La.
    cbn [run_micro]. rewrite (live_some _ _ _ O Li). cbn [bind]. eexists. split; [reflexivity|].
    set (x' := mkt (slots x) _ (fin x)). set (o' := mkobj _ true (kids o)).
    assert (Wx : forall b, tw b x = tw b x' + one b a).
    { intros b. unfold tw, x'. cbn [slots pend]. rewrite P, tot_cons. cbn [dc]. destruct (Z.eqb (cnt o) 1); [rewrite tot_cons; cbn [dc]|]; lia. }
    assert (Dx : forall b, td b x' = td b x + (if Z.eqb (cnt o) 1 then one b a else 0)).
    { intros b. unfold td, x'. cbn [pend]. rewrite P, tot_cons. cbn [dl]. destruct (Z.eqb (cnt o) 1); [rewrite tot_cons; cbn [dl]|]; lia. }
    constructor.
    + intros b. assert (N2 : nref (set_thread (set_obj s a o') t x') b + one b a = nref s b).
      { pose proof (nref_thread (set_obj s a o') t x x' b T) as Q. pose proof (nref_obj s a o o' b O) as Q2.
        unfold ow, o' in Q2. cbn [live kids] in Q2. rewrite Li in Q2. fold o' in Q2. rewrite Wx in Q. lia. }
      assert (D2 : ndel (set_thread (set_obj s a o') t x') b = ndel s b + (if Z.eqb (cnt o) 1 then one b a else 0)).
      { pose proof (ndel_thread (set_obj s a o') t x x' b T) as Q. rewrite Dx in Q. change (ndel (set_obj s a o') b) with (ndel s b) in Q. lia. }
      pose proof (g_obj _ G b) as Q. cbn [set_thread set_obj heap]. rewrite nth_lset by exact La. rewrite D2.
      destruct (Nat.eqb_spec a b) as [<-|N].
      * rewrite O in Q. unfold obj_ok in *. change (live o') with true. change (cnt o') with (cnt o - 1)%Z. rewrite Li in Q. destruct Q as [Q1 Q2]. rewrite one_same in *.
        destruct (Nat.eqb_spec (nref s a) 0); [lia|]. destruct (Z.eqb_spec (cnt o) 1); destruct (Nat.eqb_spec (nref (set_thread (set_obj s a o') t x') a) 0); lia.
      * destruct (one_cases b a) as [[? _]|[_ E]]; [congruence|]. rewrite E in *. replace (nref (set_thread (set_obj s a o') t x') b) with (nref s b) by lia.
        destruct (Z.eqb (cnt o) 1); rewrite Nat.add_0_r; exact Q.
    + assert (HF : forall b o2, nth_error (heap s) b = Some o2 -> exists o1, nth_error (heap (set_obj s a o')) b = Some o1 /\ length (kids o2) <= length (kids o1)).
      { intros b o2 E. cbn [set_obj heap]. rewrite nth_lset by exact La. destruct (Nat.eqb_spec a b) as [<-|N]; [|eauto].
        eexists. split; [reflexivity|]. cbn. assert (o2 = o) as -> by congruence. lia. }
      intros u y. cbn [set_thread threads]. rewrite nth_lset by exact L. destruct (Nat.eqb_spec t u) as [->|].
      * intros E; injection E as <-. eapply fin_ok_heap; [exact HF|]. exact (g_fin _ G u x T).
      * intros E. eapply fin_ok_heap; [exact HF|exact (g_fin _ G u y E)].
    + intros b o2. cbn [set_thread set_obj heap]. rewrite nth_lset by exact La. destruct (Nat.eqb_spec a b) as [<-|N]; [|apply G].
      intros E; injection E as <-. exact (g_kids _ G a o O).
    + exact (g_nodup _ G).
    + intros b. cbn [set_thread set_obj heap freed]. rewrite (g_freed _ G b), nth_lset by exact La. destruct (Nat.eqb_spec a b) as [<-|N]; [|tauto].
      split; intros (o2 & E & Lo); [congruence|]. injection E as <-. discriminate Lo.
  - assert (Dp : 0 < ndel s a).
    { unfold ndel. pose proof (tot_ge (td a) _ _ _ T) as Q. unfold td in Q at 1. rewrite P, tot_cons in Q. cbn [dl] in Q. rewrite one_same in Q. lia. }
    pose proof (g_obj _ G a) as Oa. destruct (nth_error (heap s) a) as [o|] eqn:O; cbn [obj_ok] in Oa; [|lia].
    destruct (live o) eqn:Li; [|lia]. destruct Oa as [C Nd]. destruct (Nat.eqb_spec (nref s a) 0) as [Z0|]; [|lia].
    pose proof (nth_lt _ _ _ O) as La. cbn [run_micro]. rewrite (live_some _ _ _ O Li). cbn [bind]. eexists. split; [reflexivity|].
    set (x' := mkt (slots x) _ (fin x)). set (o' := mkobj _ false (kids o)).
    assert (KD : forall b, tot (dc b) (map Dec (kids o)) = tot (one b) (kids o)) by (intros b; rewrite tot_map; reflexivity).
    assert (KL : forall b, tot (dl b) (map Dec (kids o)) = 0) by (intros b; apply tot_0; intros m Hm; apply in_map_iff in Hm as (k & <- & _); reflexivity).
    assert (Wx : forall b, tw b x' = tw b x + tot (one b) (kids o)).
    { intros b. unfold tw, x'. cbn [slots pend]. rewrite P, tot_cons, tot_app, KD. cbn [dc]. lia. }
    assert (Dx : forall b, td b x = td b x' + one b a).
    { intros b. unfold td, x'. cbn [pend]. rewrite P, tot_cons, tot_app, KL. cbn [dl]. lia. }
    set (s' := mk _ _ _).
    assert (N2 : forall b, nref s' b = nref s b).
    { intros b. unfold nref, s'. cbn [threads heap]. pose proof (tot_lset (tw b) _ _ _ x' T) as Q1. pose proof (tot_lset (ow b) _ _ _ o' O) as Q2.
      assert (E1 : ow b o = tot (one b) (kids o)) by (unfold ow; rewrite Li; reflexivity). assert (E2 : ow b o' = 0) by reflexivity. rewrite Wx in Q1. lia. }
    assert (D2 : forall b, ndel s' b + one b a = ndel s b).
    { intros b. unfold ndel, s'. cbn [threads]. pose proof (tot_lset (td b) _ _ _ x' T) as Q1. rewrite Dx in Q1. lia. }
    constructor.
    + intros b. rewrite N2. specialize (D2 b). pose proof (g_obj _ G b) as Q. unfold s' at 2. cbn [heap]. rewrite nth_lset by exact La.
      destruct (Nat.eqb_spec a b) as [<-|N].
      * rewrite one_same in D2. cbn [obj_ok o' live]. split; lia.
      * destruct (one_cases b a) as [[? _]|[_ E]]; [congruence|]. rewrite E in D2. replace (ndel s' b) with (ndel s b) by lia. exact Q.
    + assert (HF : forall b o2, nth_error (heap s) b = Some o2 -> exists o1, nth_error (heap s') b = Some o1 /\ length (kids o2) <= length (kids o1)).
      { intros b o2 E. unfold s'. cbn [heap]. rewrite nth_lset by exact La. destruct (Nat.eqb_spec a b) as [<-|N]; [|eauto].
        eexists. split; [reflexivity|]. cbn. assert (o2 = o) as -> by congruence. lia. }
      intros u y. unfold s' at 1. cbn [threads]. rewrite nth_lset by exact L. destruct (Nat.eqb_spec t u) as [->|].
      * intros E; injection E as <-. eapply fin_ok_heap; [exact HF|]. exact (g_fin _ G u x T).
      * intros E. eapply fin_ok_heap; [exact HF|exact (g_fin _ G u y E)].
    + intros b o2. unfold s'. cbn [heap]. rewrite nth_lset by exact La. destruct (Nat.eqb_spec a b) as [<-|N]; [|apply G].
      intros E; injection E as <-. exact (g_kids _ G a o O).
    + unfold s'. cbn [freed]. constructor; [|apply G]. intros I. apply (g_freed _ G) in I as (o2 & E & Lo). congruence.
    + intros b. unfold s'. cbn [heap freed In]. rewrite (g_freed _ G b), nth_lset by exact La. destruct (Nat.eqb_spec a b) as [<-|N].
      * split; [intros _; exists o'; auto|auto].
      * split; [intros [?|H]; [congruence|exact H]|auto].
Qed.

Ltac nopend := unfold td; cbn [pend]; auto.

Lemma final_good s t x f : good s -> nth_error (threads s) t = Some x -> pend x = [] -> fin x = Some f ->
  exists s', run_final s t x f = Some s' /\ good s'.
Proof.
  intros G T P F. pose proof (g_fin _ G t x T) as K. unfold fin_ok in K. rewrite F in K.
  assert (TD : forall b sl' f', td b (mkt sl' [] f') = td b x) by (intros; unfold td; cbn [pend]; rewrite P; reflexivity).
  assert (SETN : forall k, slot_at x k = Some None -> good (set_thread s t (mkt (lset (slots x) k (Some None)) [] None))).
  { intros k Hk. apply good_thread with x; auto; [|exact I]. intros a. unfold tw. cbn [slots pend]. rewrite P.
    pose proof (tot_slots_set x k (Some None) a (slot_lt _ _ _ Hk)) as Q. rewrite Hk in Q. lia. }
  assert (INC : forall k a, slot_at x k = Some None -> 0 < nref s a ->
     exists s', (s' <- increment s a ;; Some (set_thread s' t (mkt (lset (slots x) k (Some (Some a))) [] None))) = Some s' /\ good s').
  { intros k a Hk R. destruct (refd_live s a G R) as (o & O & Li & C). unfold increment. rewrite (live_some _ _ _ O Li). cbn [bind].
    eexists. split; [reflexivity|]. apply good_inc with x; auto; [|exact I]. intros b. unfold tw. cbn [slots pend]. rewrite P.
    pose proof (tot_slots_set x k (Some (Some a)) b (slot_lt _ _ _ Hk)) as Q. rewrite Hk in Q. cbn [sl] in Q. lia. }
  destruct f as [n k [j|a i]|k a|k|k|k js]; cbn [run_final].
  - destruct K as (Hk & p & Hj & Np). cbn [load]. rewrite Hj. cbn [bind]. destruct p as [a|].
    + apply INC; [exact Hk|]. exact (points_ref s t x j a T Hj).
    + destruct n; [|exfalso; apply Np; auto]. eexists. split; [reflexivity|]. apply SETN. exact Hk.
  - destruct K as (Hk & (j & Hj) & o & O & Hi). pose proof (points_ref s t x j a T Hj) as R. destruct (refd_live s a G R) as (o' & O' & Li & C).
    assert (o' = o) as -> by congruence. cbn [load]. rewrite (live_some _ _ _ O Li). cbn [bind].
    destruct (nth_error (kids o) i) as [b|] eqn:Eb; [|apply nth_error_None in Eb; lia]. cbn [bind].
    apply INC; [exact Hk|]. eapply kid_ref; [exact O|exact Li|]. eapply nth_error_In; exact Eb.
  - destruct K as (Hk & j & Hj). apply INC; [exact Hk|]. exact (points_ref s t x j a T Hj).
  - eexists. split; [reflexivity|]. apply SETN. exact K.
  - eexists. split; [reflexivity|]. apply good_new with x; auto. intros b. unfold tw. cbn [slots pend]. rewrite P.
    pose proof (tot_slots_set x k (Some (Some (length (heap s)))) b (slot_lt _ _ _ K)) as Q. rewrite K in Q. cbn [sl] in Q. lia.
  - destruct K as (b & Hk & Hjs). destruct js as [|j js].
    + eexists. split; [reflexivity|]. apply good_thread with x; auto; [|exact I]. intros a. unfold tw. cbn [slots pend]. rewrite P. reflexivity.
    + destruct (Hjs j (or_introl eq_refl)) as (a & Hj & Lt). rewrite Hj, Hk.
      pose proof (points_ref s t x j a T Hj) as Ra. pose proof (points_ref s t x k b T Hk) as Rb.
      destruct (refd_live s a G Ra) as (oa & Oa & La & Ca). destruct (refd_live s b G Rb) as (ob & Ob & Lb & Cb).
      unfold increment. rewrite (live_some _ _ _ Oa La). cbn [bind]. set (s1 := set_obj s a (mkobj (cnt oa + 1) true (kids oa))).
      pose proof (nth_lt _ _ _ Oa) as LLa. pose proof (nth_lt _ _ _ Ob) as LLb.
      assert (O1 : nth_error (heap s1) b = Some ob).
      { unfold s1, set_obj. cbn [heap]. rewrite nth_lset by exact LLa. destruct (Nat.eqb_spec a b); [lia|exact Ob]. }
      rewrite (live_some s1 _ _ O1 Lb). cbn [bind]. eexists. split; [reflexivity|].
      set (ob' := mkobj (cnt ob) true (kids ob ++ [a])). set (x' := mkt (slots x) [] (Some (FKids k js))). set (s2 := set_obj s1 b ob').
      assert (L1 : b < length (heap s1)) by exact (nth_lt _ _ _ O1).
      assert (HN : forall c, nth_error (heap s2) c = if Nat.eqb b c then Some ob' else if Nat.eqb a c then Some (mkobj (cnt oa + 1) true (kids oa)) else nth_error (heap s) c).
      { intros c. unfold s2, set_obj. cbn [heap]. rewrite nth_lset by exact L1. unfold s1, set_obj. cbn [heap]. rewrite nth_lset by exact LLa. reflexivity. }
      assert (N2 : forall c, nref (set_thread s2 t x') c = nref s c + one c a).
      { intros c. pose proof (nref_thread s2 t x x' c T) as Q1. pose proof (nref_obj s1 b ob ob' c O1) as Q2. fold s2 in Q2.
        pose proof (nref_obj s a oa (mkobj (cnt oa + 1) true (kids oa)) c Oa) as Q3. fold s1 in Q3. unfold ow in Q2, Q3. cbn [live kids ob'] in Q2, Q3. rewrite Lb in Q2. rewrite La in Q3.
        rewrite tot_app, tot_cons in Q2. change (tot (one c) []) with 0 in Q2. unfold tw, x' in Q1. cbn [slots pend] in Q1. rewrite P in Q1. fold x' in Q1. lia. }
      assert (D2 : forall c, ndel (set_thread s2 t x') c = ndel s c).
      { intros c. pose proof (ndel_thread s2 t x x' c T) as Q1. unfold x' in Q1. rewrite TD in Q1. fold x' in Q1. change (ndel s2 c) with (ndel s c) in Q1. lia. }
      constructor.
      * intros c. rewrite N2, D2. cbn [set_thread heap]. rewrite HN. pose proof (g_obj _ G c) as Q. destruct (Nat.eqb_spec b c) as [<-|Nb]; [|destruct (Nat.eqb_spec a c) as [<-|Na]].
        -- rewrite Ob in Q. unfold obj_ok in *. rewrite Lb in Q. cbn [ob' live cnt]. destruct (one_cases b a) as [[? _]|[_ ->]]; [lia|]. rewrite Nat.add_0_r. exact Q.
        -- rewrite Oa in Q. unfold obj_ok in *. rewrite La in Q. cbn [live cnt]. rewrite one_same. destruct Q as [Q1 Q2].
           destruct (Nat.eqb_spec (nref s a) 0); [lia|]. destruct (Nat.eqb_spec (nref s a + 1) 0); lia.
        -- destruct (one_cases c a) as [[? _]|[_ ->]]; [congruence|]. rewrite Nat.add_0_r. exact Q.
      * assert (HF : forall c o2, nth_error (heap s) c = Some o2 -> exists o1, nth_error (heap s2) c = Some o1 /\ length (kids o2) <= length (kids o1)).
        { intros c o2 E. rewrite HN. destruct (Nat.eqb_spec b c) as [<-|Nb]; [|destruct (Nat.eqb_spec a c) as [<-|Na]; [|eauto]].
          - eexists. split; [reflexivity|]. cbn [ob' kids]. rewrite app_length. assert (o2 = ob) as -> by congruence. lia.
          - eexists. split; [reflexivity|]. cbn [kids]. assert (o2 = oa) as -> by congruence. lia. }
        intros u y. cbn [set_thread threads heap]. rewrite nth_lset by exact (nth_lt _ _ _ T). destruct (Nat.eqb_spec t u) as [->|].
        -- intros E; injection E as <-. cbn [fin_ok fin x']. exists b. split; [exact Hk|]. intros j' I'. apply Hjs. right; exact I'.
        -- intros E. eapply fin_ok_heap; [exact HF|exact (g_fin _ G u y E)].
      * intros c o2. cbn [set_thread heap]. rewrite HN. destruct (Nat.eqb_spec b c) as [<-|Nb]; [|destruct (Nat.eqb_spec a c) as [<-|Na]; [|apply G]].
        -- intros E; injection E as <-. cbn [ob' kids]. intros d I'. apply in_app_iff in I' as [I'|[<-|[]]]; [exact (g_kids _ G b ob Ob d I')|exact Lt].
        -- intros E; injection E as <-. exact (g_kids _ G a oa Oa).
      * exact (g_nodup _ G).
      * intros c. cbn [set_thread heap freed s2 set_obj s1]. rewrite (g_freed _ G c). fold s1. change (lset (heap s1) b ob') with (heap s2). rewrite HN.
        destruct (Nat.eqb_spec b c) as [<-|Nb]; [|destruct (Nat.eqb_spec a c) as [<-|Na]; [|tauto]]; split; intros (o2 & E & Lo); try congruence; injection E as <-; discriminate Lo.
Qed.

Lemma fin_ok_slots h x y : fin x = fin y -> (forall k p, slot_at x k = Some p -> slot_at y k = Some p) -> fin_ok h x -> fin_ok h y.
Proof.
  intros E S. unfold fin_ok, points. rewrite <- E. destruct (fin x) as [[n k [j|a i]|k a|k|k|k js]|]; auto.
  - intros (A & p & B & C). split; [auto|]. exists p. auto.
  - intros (A & (j & B) & C). split; [auto|]. split; [exists j; auto|exact C].
  - intros (A & j & B). split; [auto|]. exists j. auto.
  - intros (b & A & B). exists b. split; [auto|]. intros j Hj. destruct (B j Hj) as (a & ? & ?). exists a. auto.
Qed.

Lemma start_good s t x o : good s -> nth_error (threads s) t = Some x -> pend x = [] -> fin x = None -> legal s t x o = true ->
  exists s', start s t x o = Some s' /\ good s'.
Proof.
  intros G T P F L.
  assert (CONS : forall k, constructed x k = true -> exists p, slot_at x k = Some p).
  { intros k. unfold constructed. destruct (slot_at x k); [eauto|discriminate]. }
  assert (NN : forall k, nonnull x k = true -> exists a, points x k a).
  { intros k. unfold nonnull, points. destruct (slot_at x k) as [[a|]|]; [eauto|discriminate|discriminate]. }
  assert (TD : forall b sl' f', td b (mkt sl' [] f') = td b x) by (intros; unfold td; cbn [pend]; rewrite P; reflexivity).
  assert (FREE : forall k, free_slot x k = true -> k < length (slots x) /\ slot_at x k = None).
  { intros k H. apply andb_prop in H as [H1 H2]. apply Nat.ltb_lt in H1. split; [exact H1|]. unfold constructed in H2. destruct (slot_at x k); [discriminate|reflexivity]. }
  assert (SET : forall k f, k < length (slots x) -> slot_at x k = None -> fin_ok (heap s) (mkt (lset (slots x) k (Some None)) [] f) ->
     good (set_thread s t (mkt (lset (slots x) k (Some None)) [] f))).
  { intros k f Lk Hk Ff. apply good_thread with x; auto. intros a. unfold tw. cbn [slots pend]. rewrite P.
    pose proof (tot_slots_set x k (Some None) a Lk) as Q. rewrite Hk in Q. cbn [sl] in Q. lia. }
  assert (REL : forall k q f p, slot_at x k = Some p -> (q = None \/ q = Some None) -> fin_ok (heap s) (mkt (lset (slots x) k q) (release x k) f) ->
     good (set_thread s t (mkt (lset (slots x) k q) (release x k) f))).
  { intros k q f p Hk Hq Ff. apply good_thread with x; auto.
    - intros a. unfold tw. cbn [slots pend]. rewrite P. pose proof (tot_slots_set x k q a (slot_lt _ _ _ Hk)) as Q. unfold release.
      rewrite Hk in *. destruct Hq as [-> | ->]; destruct p as [b|]; cbn [sl tot dc] in *; lia.
    - intros a. unfold td. cbn [pend]. rewrite P. unfold release. destruct (slot_at x k) as [[b|]|]; reflexivity. }
  destruct o as [k|k js|k c|k c|k|k j|k|k|k u j]; cbn [legal start] in *.
  - destruct (FREE k L) as [Lk Hk]. eexists. split; [reflexivity|]. apply SET; auto. cbn [fin_ok fin]. rewrite slot_lset, Nat.eqb_refl by exact Lk. reflexivity.
  - apply andb_prop in L as [L L3]. apply andb_prop in L as [L1 L2]. eexists. split; [reflexivity|]. apply good_thread with x; auto.
    + intros a. unfold tw. cbn [slots pend]. rewrite P. reflexivity.
    + cbn [fin_ok fin]. unfold points. change (slot_at (mkt (slots x) [] (Some (FKids k js)))) with (slot_at x).
      destruct (slot_at x k) as [[b|]|]; try discriminate L3. exists b. split; [reflexivity|]. destruct (obj_of s b) as [o|]; [|discriminate L3].
      apply andb_prop in L3 as [_ L3]. intros j Hj. rewrite forallb_forall in L3. specialize (L3 j Hj). destruct (slot_at x j) as [[a|]|]; try discriminate L3.
      apply Nat.ltb_lt in L3. exists a. auto.
  - apply andb_prop in L as [L1 L2]. destruct (FREE k L1) as [Lk Hk]. destruct c as [j|j i]; cbn [loc_of src_ok] in *.
    + destruct (CONS j L2) as (p & Hj). eexists. split; [reflexivity|]. apply SET; auto. cbn [fin_ok fin]. rewrite !slot_lset by exact Lk. rewrite Nat.eqb_refl.
      split; [reflexivity|]. destruct (Nat.eqb_spec k j) as [->|]; [congruence|]. exists p. split; [exact Hj|discriminate].
    + destruct (slot_at x j) as [[a|]|] eqn:Hj; try discriminate L2. cbn [bind]. eexists. split; [reflexivity|]. apply SET; auto. cbn [fin_ok fin]. unfold points. rewrite slot_lset, Nat.eqb_refl by exact Lk.
      split; [reflexivity|]. split.
      * exists j. rewrite slot_lset by exact Lk. destruct (Nat.eqb_spec k j) as [->|]; [congruence|exact Hj].
      * unfold obj_of in L2. destruct (nth_error (heap s) a) as [o|]; [|discriminate L2]. apply Nat.ltb_lt in L2. eauto.
  - apply andb_prop in L as [L L3]. apply andb_prop in L as [L1 L2]. destruct (CONS k L1) as (q & Hk). pose proof (slot_lt _ _ _ Hk) as Lk. destruct c as [j|j i]; cbn [loc_of src_ok] in *.
    + destruct (CONS j L2) as (p & Hj). cbn [bind load]. rewrite Hj. cbn [bind]. rewrite Hk. cbn [bind].
      destruct (match p, q with Some a, Some b => Nat.eqb a b | None, None => true | _, _ => false end) eqn:Eq; [eexists; split; [reflexivity|exact G]|].
      eexists. split; [reflexivity|]. eapply REL; [exact Hk|auto|]. cbn [fin_ok fin]. rewrite !slot_lset by exact Lk. rewrite Nat.eqb_refl. split; [reflexivity|].
      destruct (Nat.eqb_spec k j) as [->|Nk].
      * exfalso. assert (p = q) as -> by congruence. destruct q as [b|]; [rewrite Nat.eqb_refl in Eq|]; discriminate Eq.
      * exists p. split; [exact Hj|]. intros _ ->. unfold nonnull in L3. rewrite Hj, Hk in L3. destruct q; discriminate.
    + destruct (slot_at x j) as [[a|]|] eqn:Hj; try discriminate L2. cbn [bind load].
      pose proof (points_ref s t x j a T Hj) as R. destruct (refd_live s a G R) as (o & O & Li & C). rewrite (live_some _ _ _ O Li). cbn [bind].
      unfold obj_of in L2. rewrite O in L2. apply Nat.ltb_lt in L2. destruct (nth_error (kids o) i) as [b|] eqn:Eb; [|apply nth_error_None in Eb; lia]. cbn [bind].
      rewrite Hk. cbn [bind]. destruct (match q with Some b' => Nat.eqb b b' | None => false end); [eexists; split; [reflexivity|exact G]|].
      eexists. split; [reflexivity|]. eapply REL; [exact Hk|auto|]. cbn [fin_ok fin]. unfold points. rewrite slot_lset, Nat.eqb_refl by exact Lk. split; [reflexivity|].
      split; [|eauto]. exists j. rewrite slot_lset by exact Lk. destruct (Nat.eqb_spec k j) as [->|]; [rewrite Nat.eqb_refl in L3; discriminate|exact Hj].
  - destruct (CONS k L) as (p & Hk). eexists. split; [reflexivity|]. eapply REL; [exact Hk|auto|exact I].
  - apply andb_prop in L as [L L3]. apply andb_prop in L as [L1 L2]. destruct (CONS k L1) as (q & Hk). destruct (NN j L2) as (a & Hj). pose proof (slot_lt _ _ _ Hk) as Lk.
    rewrite Hj. eexists. split; [reflexivity|]. eapply REL; [exact Hk|auto|]. cbn [fin_ok fin]. unfold points. rewrite slot_lset, Nat.eqb_refl by exact Lk. split; [reflexivity|].
    exists j. rewrite slot_lset by exact Lk. destruct (Nat.eqb_spec k j) as [->|]; [rewrite Nat.eqb_refl in L3; discriminate|exact Hj].
  - destruct (CONS k L) as (p & Hk). eexists. split; [reflexivity|]. eapply REL; [exact Hk|auto|]. cbn [fin_ok fin]. rewrite slot_lset, Nat.eqb_refl by exact (slot_lt _ _ _ Hk). reflexivity.
  - destruct (CONS k L) as (p & Hk). eexists. split; [reflexivity|]. eapply REL; [exact Hk|auto|]. cbn [fin_ok fin]. rewrite slot_lset, Nat.eqb_refl by exact (slot_lt _ _ _ Hk). reflexivity.
  - apply andb_prop in L as [L L3]. apply andb_prop in L as [L1 L2]. destruct (CONS k L1) as (p & Hk). destruct (Nat.eqb_spec u t) as [|Nu]; [discriminate L2|].
    destruct (nth_error (threads s) u) as [y|] eqn:U; [|discriminate L3]. cbn [bind]. eexists. split; [reflexivity|].
    apply andb_prop in L3 as [J1 J2]. apply Nat.ltb_lt in J1. unfold constructed in J2. destruct (slot_at y j) eqn:Hj; [discriminate J2|]. clear J2.
    rewrite Hk. set (x' := mkt (lset (slots x) k None) (pend x) (fin x)). set (y' := mkt (lset (slots y) j (Some p)) (pend y) (fin y)).
    pose proof (nth_lt _ _ _ T) as Lt. pose proof (nth_lt _ _ _ U) as Lu.
    assert (U1 : nth_error (threads (set_thread s t x')) u = Some y).
    { cbn [set_thread threads]. rewrite nth_lset by exact Lt. destruct (Nat.eqb_spec t u); [congruence|exact U]. }
    assert (N2 : forall a, nref (set_thread (set_thread s t x') u y') a = nref s a).
    { intros a. pose proof (nref_thread (set_thread s t x') u y y' a U1) as Q1. pose proof (nref_thread s t x x' a T) as Q2.
      unfold tw, x', y' in Q1, Q2. cbn [slots pend] in Q1, Q2. fold x' y' in Q1, Q2.
      pose proof (tot_slots_set x k None a (slot_lt _ _ _ Hk)) as Q3. pose proof (tot_slots_set y j (Some p) a J1) as Q4. rewrite Hk in Q3. rewrite Hj in Q4. cbn [sl] in Q3, Q4. lia. }
    assert (D2 : forall a, ndel (set_thread (set_thread s t x') u y') a = ndel s a).
    { intros a. pose proof (ndel_thread (set_thread s t x') u y y' a U1) as Q1. pose proof (ndel_thread s t x x' a T) as Q2. unfold td, x', y' in Q1, Q2. cbn [pend] in Q1, Q2. fold x' y' in Q1, Q2. lia. }
    constructor; [| |exact (g_kids _ G)|exact (g_nodup _ G)|exact (g_freed _ G)].
    + intros a. rewrite N2, D2. exact (g_obj _ G a).
    + intros v z. cbn [set_thread threads heap]. rewrite nth_lset by (rewrite lset_length; exact Lu). destruct (Nat.eqb_spec u v) as [->|Nv].
      * intros E. injection E as <-. eapply fin_ok_slots; [| |exact (g_fin _ G v y U)]; [reflexivity|].
        intros c q Hc. unfold y'. rewrite slot_lset by exact J1. destruct (Nat.eqb_spec j c) as [->|]; [congruence|exact Hc].
      * rewrite nth_lset by exact Lt. destruct (Nat.eqb_spec t v) as [->|]; [|apply G]. intros E. injection E as <-. unfold fin_ok, x'. cbn [fin]. rewrite F. exact I.
Qed.

Lemma step_good s t o : good s -> exists s', step s t o = Some s' /\ good s'.
Proof.
  intros G. unfold step. destruct (nth_error (threads s) t) as [x|] eqn:T; [|eauto].
  destruct (pend x) as [|m r] eqn:P; [|exact (micro_good s t x m r G T P)].
  destruct (fin x) as [f|] eqn:F; [exact (final_good s t x f G T P F)|].
  destruct (legal s t x o) eqn:L; [|eauto]. exact (start_good s t x o G T P F L).
Qed.
Lemma run_good l : forall s, good s -> exists s', run s l = Some s' /\ good s'.
Proof.
  induction l as [|[t o] l IH]; intros s G; cbn [run]; [eauto|]. destruct (step_good s t o G) as (s1 & E & G1). rewrite E. cbn [bind]. exact (IH s1 G1).
Qed.

Lemma no_ub n w l : exists s, run (init n w) l = Some s.
Proof. destruct (run_good l _ (init_good n w)) as (s & E & _). eauto. Qed.
Lemma reach_good n w l s : run (init n w) l = Some s -> good s.
Proof. intros E. destruct (run_good l _ (init_good n w)) as (s' & E' & G). congruence. Qed.

Lemma held_exists s a : good s -> held s a \/ member s a -> exists_ s a.
Proof.
  intros G [(t & x & k & T & K)|(b & o & O & L & I)].
  - destruct (refd_live s a G) as (o & O & Li & _); [|exists o; auto]. apply (points_ref s t x k a T). exact (nth_slot _ _ _ K).
  - destruct (refd_live s a G) as (o' & O' & Li & _); [|exists o'; auto]. exact (kid_ref s b o a O L I).
Qed.
Lemma idle_exists s a : good s -> idle s -> exists_ s a -> held s a \/ member s a.
Proof.
  intros G Id (o & O & L). pose proof (g_obj _ G a) as Q. rewrite O in Q. cbn [obj_ok] in Q. rewrite L in Q. destruct Q as [_ Q].
  assert (D : ndel s a = 0).
  { apply tot_0. intros x I. apply In_nth_error in I as (t & T). destruct (Id t x T) as [P _]. unfold td. rewrite P. reflexivity. }
  destruct (Nat.eqb_spec (nref s a) 0); [lia|]. assert (R : 0 < nref s a) by lia. unfold nref in R.
  destruct (Nat.eq_dec (tot (tw a) (threads s)) 0) as [Z0|Z0].
  - right. destruct (tot_pos (ow a) (heap s)) as (b & ob & Ob & W); [lia|]. exists b, ob. split; [exact Ob|]. unfold ow in W. destruct (live ob); [|lia].
    split; [reflexivity|]. apply tot_pos in W as (i & c & Hc & W). apply nth_error_In in Hc. destruct (one_cases a c) as [[-> _]|[_ ?]]; [exact Hc|lia].
  - left. destruct (tot_pos (tw a) (threads s)) as (t & x & T & W); [lia|]. destruct (Id t x T) as [P _]. unfold tw in W. rewrite P in W. cbn [tot] in W.
    destruct (tot_pos (sl a) (slots x)) as (k & c & Hk & Wk); [lia|]. exists t, x, k. split; [exact T|]. rewrite Hk. unfold sl in Wk. destruct c as [[c|]|]; try lia.
    destruct (one_cases a c) as [[-> _]|[_ ?]]; [reflexivity|lia].
Qed.
Lemma reachable_exists s a : good s -> reachable s a -> exists_ s a.
Proof.
  intros G R. induction R as [a H|a b o R IH O L I]; [apply held_exists; auto|]. apply held_exists; [exact G|]. right. exists b, o. auto.
Qed.
Lemma exists_reachable s a : good s -> idle s -> exists_ s a -> reachable s a.
Proof.
  intros G Id. remember (length (heap s) - a) as n eqn:En. revert a En. induction n as [n IH] using lt_wf_ind. intros a En E.
  destruct (idle_exists s a G Id E) as [H|(b & o & O & L & I)]; [apply R_held; exact H|].
  pose proof (g_kids _ G b o O a I) as Lt. pose proof (nth_lt _ _ _ O) as Lb. eapply R_member; [|exact O|exact L|exact I].
  apply (IH (length (heap s) - b)); [lia|reflexivity|exists o; auto].
Qed.
