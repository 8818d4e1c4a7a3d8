(** Lemmas about initialization and finalization. *)
From Coq Require Import List Arith Lia Bool.
From Verif Require Import Base Library.
Import ListNotations.
Local Open Scope nat_scope.

Section Lib.
Variable c : config.

(** A thread's share of global_count. *)
Definition contrib (t : thread) : nat :=
  match t_now t with WEnter :: _ => S (t_count t) | WLeave :: _ => t_count t - 1 | _ => t_count t end.

(** The resources of a thread between operations. *)
Definition res (count : nat) (a m : bool) (lost : nat) : Prop :=
  if c_mpi c then a = (0 <? count) /\ m = (0 <? count) /\ lost = 0 else 0 < count -> a = true.
Definition mp : list micro := if c_mpi c then [WMpi] else [].
Definition fin : list micro := if c_mpi c then [WMpiFin; WAllocFin] else [].

(** Where a thread can be: [n] objects besides [b] after the operation. *)
Inductive at_ (b n : nat) : list micro -> nat -> bool -> bool -> nat -> Prop :=
| a_idle a m l : res (b + n) a m l -> at_ b n [] (b + n) a m l
| a_use a m l : res (b + n) a m l -> 0 < b + n -> at_ b n [WUse] (b + n) a m l
| a_inc k a m l : n = S k -> res (b + k) a m l -> at_ b n (WInc :: WEnter :: WOnce :: WAlloc :: mp) (b + k) a m l
| a_enter k a m l : n = S k -> res (b + k) a m l -> at_ b n (WEnter :: WOnce :: WAlloc :: mp) (b + k) a m l
| a_once a m l : b = 0 -> n = 1 -> res 0 a m l -> at_ b n (WOnce :: WAlloc :: mp) 1 a m l
| a_alloc a m l : b = 0 -> n = 1 -> res 0 a m l -> at_ b n (WAlloc :: mp) 1 a m l
| a_mpi l : b = 0 -> n = 1 -> c_mpi c = true -> l = 0 -> at_ b n [WMpi] 1 true false l
| a_dec a m l : res (S (b + n)) a m l -> at_ b n (WDec :: WLeave :: fin ++ [WLast]) (S (b + n)) a m l
| a_leave a m l : res (S (b + n)) a m l -> at_ b n (WLeave :: fin ++ [WLast]) (S (b + n)) a m l
| a_fin l : b = 0 -> n = 0 -> c_mpi c = true -> l = 0 -> at_ b n [WMpiFin; WAllocFin; WLast] 0 true true l
| a_afin l : b = 0 -> n = 0 -> c_mpi c = true -> l = 0 -> at_ b n [WAllocFin; WLast] 0 true false l
| a_last a m l : res (b + n) a m l -> at_ b n [WLast] (b + n) a m l.

Definition tinv (b : nat) (T : list op) (t : thread) : Prop :=
  exists n p, balanced b n p = true /\ t_next t = p ++ T /\
    at_ b n (t_now t) (t_count t) (t_alloc t) (t_comm t) (t_lost t).

(** The shared state while the main thread's object exists. *)
Definition bst (k : nat) (ths : list thread) : lib :=
  {| g_count := k; g_once := 1; g_gone := 0; g_buf := if c_mpi c then Live else Null;
     g_own := c_mpi c && negb (c_app c); g_mpi := if c_app c || c_mpi c then MpiUp else MpiNo;
     g_spawned := true; g_threads := ths |}.

Lemma tinv_fetch b T t o os : tinv b T t -> t_now t = [] -> t_next t = o :: os ->
  tinv b T {| t_count := t_count t; t_alloc := t_alloc t; t_comm := t_comm t; t_lost := t_lost t; t_now := code_of c o; t_next := os |}
  \/ T = o :: os /\ t_count t = b /\ res b (t_alloc t) (t_comm t) (t_lost t).
Proof.
  intros (n & p & B & E & A) H1 H2. rewrite H1 in A. inversion A as [a m l R| | | | | | | | | | |]; subst.
  rewrite H2 in E. destruct p as [|o' p].
  { right. cbn in B. apply Nat.eqb_eq in B. subst n. rewrite Nat.add_0_r in *. auto. }
  left. cbn [app] in E. injection E as <- ->. destruct o; cbn [balanced] in B; try discriminate.
  - exists (S n), p. split; [exact B|]. split; [reflexivity|]. cbn. apply a_inc; auto.
  - destruct n as [|n]; [discriminate|]. exists n, p. split; [exact B|]. split; [reflexivity|]. cbn [t_now t_count t_alloc t_comm t_lost code_of].
    replace (b + S n) with (S (b + n)) in * by lia. apply (a_dec b n _ _ _ R).
  - apply andb_prop in B as [B1 B2]. apply Nat.ltb_lt in B1. exists n, p. split; [exact B2|]. split; [reflexivity|]. apply a_use; auto.
Qed.

Lemma bst_eq k k' ths (t : thread) : k = k' -> Some (bst k ths, t) = Some (bst k' ths, t).
Proof. intros ->. reflexivity. Qed.

(** A step of a thread leaves the rest alone but for its share of the
    counter. *)
Lemma tinv_step b T k ths t m r : tinv b T t -> t_now t = m :: r ->
  contrib t + (if b =? 0 then 1 else 0) <= k ->
  exists t', micro_step c (bst k ths) t m r = Some (bst (k - contrib t + contrib t') ths, t') /\ tinv b T t' /\
    t_next t' = t_next t /\ length (t_now t') < length (t_now t) /\ m <> WJoin /\ m <> WSpawn.
Proof.
  intros (n & p & B & E & A) H K. 
  assert (G : forall now count a mm l, at_ b n now count a mm l ->
     tinv b T {| t_count := count; t_alloc := a; t_comm := mm; t_lost := l; t_now := now; t_next := t_next t |}).
  { intros. exists n, p. auto. }
  unfold contrib in K. rewrite H in A, K.
  assert (Q : forall x, x + (if b =? 0 then 1 else 0) <= k -> x <= k /\ (b = 0 -> x < k) /\ k - x + x = k).
  { intros x. destruct (Nat.eqb_spec b 0); lia. }
  destruct t as [tc ta tm tlost tnow tnext]; cbn [t_now t_count t_alloc t_comm t_lost t_next] in *. subst tnow. clear E B.
  Ltac go now count a mm l nx := exists {| t_count := count; t_alloc := a; t_comm := mm; t_lost := l; t_now := now; t_next := nx |};
    split; [|split; [match goal with G : forall _ _ _ _ _, _ -> _ |- _ => apply G end|
              cbn [t_now t_next length app]; rewrite ?app_length; repeat split; (cbn [length]; lia || discriminate)]].
  inversion A as [|a mm l R P|j a mm l N R|j a mm l N R|a mm l Hb N R|a mm l Hb N R|l Hb N M Hl|a mm l R|a mm l R|l Hb N M Hl|l Hb N M Hl|a mm l R]; subst;
    unfold micro_step, contrib, with_code; cbn [t_now t_count t_alloc t_comm t_lost t_next]; destruct (Q _ K) as (Q1 & Q2 & Q3).
  - (* use *) assert (U : usable c (bst k ths) {| t_count := b + n; t_alloc := ta; t_comm := tm; t_lost := tlost; t_now := [WUse]; t_next := tnext |} = true).
    { unfold usable, bst; cbn [t_alloc t_comm g_once g_gone g_mpi Nat.eqb]. unfold res in R. destruct (c_mpi c).
      - destruct R as (-> & -> & _). assert (Z : (0 <? b + n) = true) by (apply Nat.ltb_lt; lia). rewrite Z, orb_true_r. reflexivity.
      - rewrite (R P). reflexivity. }
    rewrite U. go (@nil micro) (b + n) ta tm tlost tnext; [apply bst_eq; cbn [t_now t_count]; lia|apply a_idle; assumption].
  - (* inc *) go (WEnter :: WOnce :: WAlloc :: mp) (b + j) ta tm tlost tnext; [|eapply a_enter; eauto].
    unfold bst. cbn [g_count g_once g_gone g_buf g_own g_mpi g_spawned g_threads t_now t_count]. repeat f_equal. lia.
  - (* enter *) destruct (Nat.eqb_spec (b + j) 0) as [Z|Z].
    + assert (b = 0) by lia. assert (j = 0) by lia. subst. cbn [Nat.add Nat.eqb] in *.
      go (WOnce :: WAlloc :: mp) 1 ta tm tlost tnext; [|apply a_once; auto].
      apply bst_eq. cbn [t_now t_count]. lia.
    + go (@nil micro) (b + S j) ta tm tlost tnext.
      * replace (b + S j) with (S (b + j)) by lia. apply bst_eq. cbn [t_now t_count]. lia.
      * apply a_idle. revert R. unfold res. destruct (c_mpi c); [|intros R _; apply R; lia].
        replace (0 <? b + S j) with true by (symmetry; apply Nat.ltb_lt; lia).
        replace (0 <? b + j) with true by (symmetry; apply Nat.ltb_lt; lia). auto.
  - (* once *) unfold count_is. cbn [bst g_count]. destruct (Nat.eqb_spec k 1) as [Z|Z]; [specialize (Q2 eq_refl); lia|].
    go (WAlloc :: mp) 1 ta tm tlost tnext; [apply bst_eq; cbn [t_now t_count]; lia|apply a_alloc; auto].
  - (* alloc *) unfold res, mp in *. destruct (c_mpi c) eqn:M.
    + destruct R as (-> & -> & ->). cbn [Nat.ltb Nat.leb]. go [WMpi] 1 true false 0 tnext; [apply bst_eq; cbn [t_now t_count]; lia|apply a_mpi; auto].
    + go (@nil micro) 1 true tm (if ta then S tlost else tlost) tnext; [apply bst_eq; cbn [t_now t_count]; lia|].
      apply (a_idle 0 1). unfold res. rewrite M. auto.
  - (* mpi *) unfold bst. cbn [g_buf g_mpi g_count g_once g_gone g_own g_spawned g_threads]. rewrite M, orb_true_r. cbn [g_buf g_mpi g_count g_once g_gone g_own g_spawned g_threads].
    go (@nil micro) 1 true true 0 tnext; [cbn [t_now t_count]; replace (k - 1 + 1) with k by lia; reflexivity|].
    apply (a_idle 0 1). unfold res. rewrite M. auto.
  - (* dec *) cbn [bst g_count]. destruct k as [|k]; [lia|].
    go (WLeave :: fin ++ [WLast]) (S (b + n)) ta tm tlost tnext; [|apply a_leave; auto].
    unfold bst. cbn [g_count g_once g_gone g_buf g_own g_mpi g_spawned g_threads t_now t_count]. repeat f_equal. lia.
  - (* leave *) destruct (Nat.eqb_spec (b + n) 0) as [Z|Z].
    + assert (b = 0) by lia. assert (n = 0) by lia. subst. cbn [Nat.add] in *. unfold res, fin in *. destruct (c_mpi c) eqn:M.
      * destruct R as (-> & -> & ->). go [WMpiFin; WAllocFin; WLast] 0 true true 0 tnext; [apply bst_eq; cbn [t_now t_count]; lia|apply a_fin; auto].
      * go [WLast] 0 ta tm tlost tnext; [apply bst_eq; cbn [t_now t_count]; lia|apply (a_last 0 0)]. unfold res. rewrite M. lia.
    + go [WLast] (b + n) ta tm tlost tnext; [apply bst_eq; cbn [t_now t_count]; lia|apply a_last].
      revert R. unfold res. destruct (c_mpi c); [|intros R _; apply R; lia].
      replace (0 <? b + n) with true by (symmetry; apply Nat.ltb_lt; lia). auto.
  - (* mpi fin *) unfold count_is. cbn [bst g_count]. destruct (Nat.eqb_spec k 0) as [Z|Z]; [specialize (Q2 eq_refl); lia|].
    go [WAllocFin; WLast] 0 true false 0 tnext; [apply bst_eq; cbn [t_now t_count]; lia|apply a_afin; auto].
  - (* alloc fin *) go [WLast] 0 false false 0 tnext; [apply bst_eq; cbn [t_now t_count]; lia|apply (a_last 0 0)]. unfold res. rewrite M. auto.
  - (* last *) unfold count_is. cbn [bst g_count]. destruct (Nat.eqb_spec k 0) as [Z|Z].
    { exfalso. destruct (Nat.eqb_spec b 0); lia. }
    go (@nil micro) (b + n) ta tm tlost tnext; [apply bst_eq; cbn [t_now t_count]; lia|apply a_idle; auto].
Qed.

Definition cost (o : op) : nat := S (length (code_of c o)).
Definition weight (t : thread) : nat := length (t_now t) + list_sum (map cost (t_next t)).
Definition total (s : lib) : nat := list_sum (map weight (g_threads s)).

Definition mk (count : nat) (a m : bool) (l : nat) (now : list micro) (next : list op) : thread :=
  {| t_count := count; t_alloc := a; t_comm := m; t_lost := l; t_now := now; t_next := next |}.
Definition shared (k o g : nat) (b : mem) (w : bool) (m : mpi_state) (sp : bool) (ths : list thread) : lib :=
  {| g_count := k; g_once := o; g_gone := g; g_buf := b; g_own := w; g_mpi := m; g_spawned := sp; g_threads := ths |}.

Definition mpi0 : mpi_state := if c_app c then MpiUp else MpiNo.
Definition mpi1 : mpi_state := if c_app c || c_mpi c then MpiUp else MpiNo.
Definition mpi2 : mpi_state := if c_mpi c && negb (c_app c) then MpiDown else mpi1.
Definition buf1 : mem := if c_mpi c then Live else Null.
Definition buf2 : mem := if c_mpi c then Freed else Null.
Definition own1 : bool := c_mpi c && negb (c_app c).
Definition tail : list op := [OJoin; ODelete].

Definition fresh (t : thread) : Prop := exists p, balanced 0 0 p = true /\ t = mk 0 false false 0 [] p.
Definition ended (t : thread) : Prop := t_now t = [] /\ t_next t = [] /\ t_count t = 0 /\ res 0 (t_alloc t) (t_comm t) (t_lost t).
Definition joining (m : thread) : Prop := t_now m = [WJoin] /\ t_next m = [ODelete] /\ t_count m = 1 /\ res 1 (t_alloc m) (t_comm m) (t_lost m).

Section Run.
Variable body : list op.
Hypothesis body_ok : balanced 1 0 body = true.

Inductive Inv : lib -> Prop :=
| i0 R : Forall fresh R -> Inv (shared 0 0 0 Null false mpi0 false (mk 0 false false 0 [] (main_program body) :: R))
| i1 R : Forall fresh R -> Inv (shared 0 0 0 Null false mpi0 false (mk 0 false false 0 (code_new c) (OSpawn :: body ++ tail) :: R))
| i2 R : Forall fresh R -> Inv (shared 1 0 0 Null false mpi0 false (mk 0 false false 0 (WEnter :: WOnce :: WAlloc :: mp) (OSpawn :: body ++ tail) :: R))
| i3 R : Forall fresh R -> Inv (shared 1 0 0 Null false mpi0 false (mk 1 false false 0 (WOnce :: WAlloc :: mp) (OSpawn :: body ++ tail) :: R))
| i4 R : Forall fresh R -> Inv (shared 1 1 0 Null false mpi0 false (mk 1 false false 0 (WAlloc :: mp) (OSpawn :: body ++ tail) :: R))
| i5 R : Forall fresh R -> c_mpi c = true -> Inv (shared 1 1 0 Null false mpi0 false (mk 1 true false 0 [WMpi] (OSpawn :: body ++ tail) :: R))
| i6 R : Forall fresh R -> Inv (shared 1 1 0 buf1 own1 mpi1 false (mk 1 true (c_mpi c) 0 [] (OSpawn :: body ++ tail) :: R))
| i7 R : Forall fresh R -> Inv (shared 1 1 0 buf1 own1 mpi1 false (mk 1 true (c_mpi c) 0 [WSpawn] (body ++ tail) :: R))
| iB m R : tinv 1 tail m \/ joining m -> Forall (tinv 0 []) R ->
    Inv (bst (contrib m + list_sum (map contrib R)) (m :: R))
| c0 a m l R : Forall ended R -> res 1 a m l -> Inv (shared 1 1 0 buf1 own1 mpi1 true (mk 1 a m l [] [ODelete] :: R))
| c1 a m l R : Forall ended R -> res 1 a m l -> Inv (shared 1 1 0 buf1 own1 mpi1 true (mk 1 a m l (code_delete c) [] :: R))
| c2 a m l R : Forall ended R -> res 1 a m l -> Inv (shared 0 1 0 buf1 own1 mpi1 true (mk 1 a m l (WLeave :: fin ++ [WLast]) [] :: R))
| c3 a m l R : Forall ended R -> res 1 a m l -> Inv (shared 0 1 0 buf1 own1 mpi1 true (mk 0 a m l (fin ++ [WLast]) [] :: R))
| c4 R : Forall ended R -> c_mpi c = true -> Inv (shared 0 1 0 buf2 own1 mpi2 true (mk 0 true false 0 [WAllocFin; WLast] [] :: R))
| c5 a m l R : Forall ended R -> res 0 a m l -> Inv (shared 0 1 0 buf2 own1 mpi2 true (mk 0 a m l [WLast] [] :: R))
| c6 a m l R : Forall ended R -> res 0 a m l -> Inv (shared 0 1 1 buf2 own1 mpi2 true (mk 0 a m l [] [] :: R)).

Definition final (s : lib) : Prop :=
  forallb idle (g_threads s) = true /\ g_count s = 0 /\ g_once s = 1 /\ g_gone s = 1 /\ g_buf s <> Live /\ g_mpi s = mpi2 /\
  Forall (fun t => t_count t = 0 /\ res 0 (t_alloc t) (t_comm t) (t_lost t)) (g_threads s).

(** What an invariant state can do. *)
Definition good (s : lib) : Prop :=
  (forall i, step c s i = Blocked \/ exists s', step c s i = Next s' /\ Inv s' /\ total s' < total s) /\
  ((exists i s', step c s i = Next s') \/ final s).

Lemma sum_lset f (l : list thread) : forall i t t', nth_error l i = Some t ->
  list_sum (map f (lset l i t')) + f t = list_sum (map f l) + f t'.
Proof.
  induction l as [|x l IH]; intros [|i] t t' H; cbn in H |- *; try discriminate.
  - injection H as ->. lia.
  - specialize (IH i t t' H). unfold list_sum in *. cbn in *. lia.
Qed.
Lemma lset_Forall (P : thread -> Prop) (l : list thread) : forall i t, Forall P l -> P t -> Forall P (lset l i t).
Proof.
  induction l as [|x l IH]; intros [|i] t F H; cbn; auto; inversion F; subst; constructor; auto.
Qed.

(** Only the main thread moves before the others are started. *)
Lemma main_only k o g b w m sp t R s' : 
  (sp = false \/ Forall ended R) ->
  step c (shared k o g b w m sp (t :: R)) 0 = Next s' -> Inv s' -> total s' < total (shared k o g b w m sp (t :: R)) ->
  good (shared k o g b w m sp (t :: R)).
Proof.
  intros F H I L. split; [|left; eauto]. intros [|i]; [right; eauto|]. left. unfold step, shared. cbn [g_threads nth_error g_spawned Nat.eqb negb andb].
  destruct (nth_error R i) as [x|] eqn:E; [|reflexivity]. destruct F as [->|F]; [reflexivity|]. destruct (negb sp); [reflexivity|].
  rewrite Forall_forall in F. destruct (F x (nth_error_In _ _ E)) as (-> & -> & _). reflexivity.
Qed.

Lemma fresh_tinv t : fresh t -> tinv 0 [] t.
Proof.
  intros (p & B & ->). exists 0, p. split; [exact B|]. split; [symmetry; apply app_nil_r|]. cbn. apply (a_idle 0 0). unfold res. destruct (c_mpi c); [auto|lia].
Qed.
Lemma fresh_contrib R : Forall fresh R -> list_sum (map contrib R) = 0.
Proof. induction 1 as [|t R (p & _ & ->) F IH]; cbn in *; auto. Qed.
Lemma ended_contrib R : Forall ended R -> list_sum (map contrib R) = 0.
Proof. induction 1 as [|t R (E1 & E2 & E3 & _) F IH]; cbn in *; auto. unfold contrib at 1. rewrite E1, E3. exact IH. Qed.
Lemma contrib_main m : tinv 1 tail m \/ joining m -> 1 <= contrib m.
Proof.
  intros [(n & p & _ & _ & A)|(E1 & _ & E2 & _)]; unfold contrib.
  - inversion A; cbn; try lia.
  - rewrite E1, E2. lia.
Qed.
Lemma in_sum R i t : nth_error R i = Some t -> contrib t <= list_sum (map contrib R).
Proof.
  revert i. induction R as [|x R IH]; intros [|i] H; cbn in H |- *; try discriminate; unfold list_sum in *; cbn.
  - injection H as ->. lia.
  - specialize (IH i H). cbn in IH. lia.
Qed.
Lemma idle_ended R : Forall (tinv 0 []) R -> forallb idle R = true -> Forall ended R.
Proof.
  intros F H. rewrite forallb_forall in H. rewrite Forall_forall in *. intros t Ht. specialize (F t Ht). specialize (H t Ht).
  unfold idle in H. destruct (t_now t) eqn:E1; [|discriminate]. destruct (t_next t) eqn:E2; [|discriminate].
  destruct F as (n & p & B & E & A). rewrite E2 in E. destruct p; [|discriminate]. cbn in B. apply Nat.eqb_eq in B. subst n.
  rewrite E1 in A. inversion A as [a mm l R0 X1 X2| | | | | | | | | | |]; subst. split; [exact E1|]. split; [exact E2|]. cbn in *. auto.
Qed.

Lemma rest_step m R i : tinv 1 tail m \/ joining m -> Forall (tinv 0 []) R ->
  let s := bst (contrib m + list_sum (map contrib R)) (m :: R) in
  (exists t, nth_error R i = Some t /\ idle t = false) \/ step c s (S i) <> Blocked ->
  exists s', step c s (S i) = Next s' /\ Inv s' /\ total s' < total s.
Proof.
  intros HM HR s H. pose proof (contrib_main m HM) as CM.
  destruct (nth_error R i) as [t|] eqn:E.
  2:{ destruct H as [(t & Q & _)|H]; [discriminate|]. exfalso. apply H. unfold step, s, bst. cbn [g_threads nth_error]. rewrite E. reflexivity. }
  assert (HT : tinv 0 [] t) by (rewrite Forall_forall in HR; eapply HR, nth_error_In, E).
  pose proof (in_sum R i t E) as CT. unfold step, s at 1. cbn [bst g_threads nth_error g_spawned negb andb Nat.eqb]. rewrite E.
  destruct (t_now t) as [|mi r] eqn:N.
  - destruct (t_next t) as [|o os] eqn:X.
    { exfalso. destruct H as [(t0 & Q & I)|H].
      - injection Q as <-. unfold idle in I. rewrite N, X in I. discriminate.
      - apply H. unfold step, s. cbn [bst g_threads nth_error g_spawned negb andb Nat.eqb]. rewrite E, N, X. reflexivity. }
    destruct (tinv_fetch 0 [] t o os HT N X) as [T|(Q & _)]; [|discriminate].
    set (t' := {| t_count := t_count t; t_alloc := t_alloc t; t_comm := t_comm t; t_lost := t_lost t; t_now := code_of c o; t_next := os |}) in *.
    eexists. split; [reflexivity|].
    assert (C' : contrib t' = contrib t).
    { unfold contrib, t'. cbn [t_now t_count]. rewrite N. destruct o; reflexivity. }
    split.
    + unfold s. change (set_thread _ _ _) with (bst (contrib m + list_sum (map contrib R)) (m :: lset R i t')).
      replace (list_sum (map contrib R)) with (list_sum (map contrib (lset R i t'))).
      * apply iB; [exact HM|apply lset_Forall; auto].
      * pose proof (sum_lset contrib R i t t' E). lia.
    + unfold total, s. cbn [set_thread bst g_threads lset map]. pose proof (sum_lset weight R i t t' E) as W.
      assert (weight t' < weight t).
      { unfold weight, t'. cbn [t_now t_next]. rewrite N, X. cbn [map length]. unfold cost at 2, list_sum. cbn. lia. }
      unfold list_sum in *. cbn in *. lia.
  - destruct (tinv_step 0 [] (contrib m + list_sum (map contrib R)) (m :: R) t mi r HT N) as (t' & S1 & S2 & S3 & S4 & S5 & S6).
    { cbn. lia. }
    assert (NX : exists s', match mi with
                      | WJoin => if forallb idle (tl (m :: R)) then Next (set_thread s (S i) (with_code t r)) else Blocked
                      | _ => match micro_step c s t mi r with None => Fail | Some (s', t') => Next (set_thread s' (S i) t') end
                      end = Next s' /\ s' = bst (contrib m + list_sum (map contrib R) - contrib t + contrib t') (m :: lset R i t')).
    { unfold s. rewrite S1. eexists. split; [|reflexivity]. destruct mi; try reflexivity. congruence. }
    destruct NX as (s' & NX & ->). eexists. split; [exact NX|]. split.
    + pose proof (sum_lset contrib R i t t' E).
      replace (contrib m + list_sum (map contrib R) - contrib t + contrib t') with (contrib m + list_sum (map contrib (lset R i t'))) by lia.
      apply iB; [exact HM|apply lset_Forall; auto].
    + unfold total, s. cbn [bst g_threads map]. pose proof (sum_lset weight R i t t' E) as W.
      assert (weight t' < weight t) by (unfold weight; rewrite S3; lia). unfold list_sum in *. cbn in *. lia.
Qed.

Lemma main_step m R : tinv 1 tail m -> Forall (tinv 0 []) R ->
  let s := bst (contrib m + list_sum (map contrib R)) (m :: R) in
  exists s', step c s 0 = Next s' /\ Inv s' /\ total s' < total s.
Proof.
  intros HT HR s. pose proof (contrib_main m (or_introl HT)) as CM.
  unfold step, s at 1. cbn [bst g_threads nth_error g_spawned negb andb Nat.eqb].
  destruct (t_now m) as [|mi r] eqn:N.
  - destruct (t_next m) as [|o os] eqn:X.
    { exfalso. destruct HT as (n & p & _ & Q & _). rewrite X in Q. destruct p; discriminate. }
    set (t' := {| t_count := t_count m; t_alloc := t_alloc m; t_comm := t_comm m; t_lost := t_lost m; t_now := code_of c o; t_next := os |}) in *.
    assert (W : weight t' < weight m).
    { unfold weight, t'. cbn [t_now t_next]. rewrite N, X. cbn [map length]. unfold cost at 2, list_sum. cbn. lia. }
    assert (C' : contrib t' = contrib m).
    { unfold contrib, t'. cbn [t_now t_count]. rewrite N. destruct o; reflexivity. }
    eexists. split; [reflexivity|].
    assert (HT' : tinv 1 tail t' \/ joining t').
    { destruct (tinv_fetch 1 tail m o os HT N X) as [T|(Q & Q1 & Q2)]; [left; exact T|]. right. injection Q as <- <-.
      split; [reflexivity|]. split; [reflexivity|]. split; [exact Q1|exact Q2]. }
    split.
    + unfold s. change (set_thread _ _ _) with (bst (contrib m + list_sum (map contrib R)) (t' :: R)). rewrite <- C'. apply iB; auto.
    + unfold total, s. cbn [set_thread bst g_threads lset map]. unfold list_sum in *. cbn in *. lia.
  - destruct (tinv_step 1 tail (contrib m + list_sum (map contrib R)) (m :: R) m mi r HT N) as (t' & S1 & S2 & S3 & S4 & S5 & S6).
    { cbn. lia. }
    assert (NX : exists s', match mi with
                      | WJoin => if forallb idle (tl (m :: R)) then Next (set_thread s 0 (with_code m r)) else Blocked
                      | _ => match micro_step c s m mi r with None => Fail | Some (s', t') => Next (set_thread s' 0 t') end
                      end = Next s' /\ s' = bst (contrib m + list_sum (map contrib R) - contrib m + contrib t') (t' :: R)).
    { unfold s. rewrite S1. eexists. split; [|reflexivity]. destruct mi; try reflexivity. congruence. }
    destruct NX as (s' & NX & ->). eexists. split; [exact NX|]. split.
    + replace (contrib m + list_sum (map contrib R) - contrib m + contrib t') with (contrib t' + list_sum (map contrib R)) by lia. apply iB; auto.
    + unfold total, s. cbn [bst g_threads map]. assert (weight t' < weight m) by (unfold weight; rewrite S3; lia). unfold list_sum in *. cbn in *. lia.
Qed.

Lemma Inv_good s : Inv s -> good s.
Proof.
  intros I. inversion I as [R F|R F|R F|R F|R F|R F M|R F|R F|m R HM HR|a m l R F RS|a m l R F RS|a m l R F RS|a m l R F RS|R F M|a m l R F RS|a m l R F RS]; subst.
  Ltac tot := unfold total, shared, bst, weight, mk, code_new, code_delete; cbn [g_threads map t_now t_next set_thread lset with_code list_sum fold_right app length code_of t_count Nat.eqb]; fold fin; fold mp; lia.
  - eapply main_only; [left; reflexivity|reflexivity|apply (i1 R F)|]. unfold main_program, tail. unfold total, shared, weight, mk, cost; cbn [set_thread lset with_code g_threads map t_now t_next length code_of list_sum fold_right]. lia.
  - eapply main_only; [left; reflexivity|reflexivity|apply (i2 R F)|]. tot.
  - eapply main_only; [left; reflexivity|reflexivity|apply (i3 R F)|]. tot.
  - eapply main_only; [left; reflexivity|reflexivity|apply (i4 R F)|]. tot.
  - unfold mp. destruct (c_mpi c) eqn:M.
    + eapply main_only; [left; reflexivity|reflexivity|apply (i5 R F M)|]. tot.
    + eapply main_only; [left; reflexivity|reflexivity| |tot]. pose proof (i6 R F) as Q. unfold buf1, own1, mpi1, mpi0 in *. rewrite M, ?orb_false_r in Q. exact Q.
  - eapply main_only; [left; reflexivity| |apply (i6 R F)|].
    + unfold step, shared, mk. cbn. unfold mpi0, buf1, own1, mpi1. rewrite M. destruct (c_app c); reflexivity.
    + unfold total, shared, weight, mk; cbn [set_thread lset with_code g_threads map t_now t_next length list_sum fold_right]. lia.
  - eapply main_only; [left; reflexivity|reflexivity|apply (i7 R F)|]. unfold total, shared, weight, mk, cost; cbn [set_thread lset with_code g_threads map t_now t_next length code_of list_sum fold_right]. lia.
  - eapply main_only; [left; reflexivity|reflexivity| |].
    + assert (Q : Inv (bst (contrib (mk 1 true (c_mpi c) 0 [] (body ++ tail)) + list_sum (map contrib R)) (mk 1 true (c_mpi c) 0 [] (body ++ tail) :: R))).
      { apply iB; [left|eapply Forall_impl; [apply fresh_tinv|exact F]]. exists 0, body. split; [exact body_ok|]. split; [reflexivity|].
        cbn. apply (a_idle 1 0). unfold res. destruct (c_mpi c); auto. }
      rewrite (fresh_contrib R F) in Q. exact Q.
    + tot.
  - destruct HM as [HM|HM].
    + destruct (main_step m R HM HR) as (s' & S1 & S2 & S3). split; [|left; eauto]. intros [|i]; [right; eauto|].
      destruct (step c _ (S i)) eqn:E; [|left; reflexivity|].
      all: right; rewrite <- E; apply (rest_step m R i); auto; right; rewrite E; discriminate.
    + assert (O : forall i, step c (bst (contrib m + list_sum (map contrib R)) (m :: R)) (S i) = Blocked \/
         exists s', step c (bst (contrib m + list_sum (map contrib R)) (m :: R)) (S i) = Next s' /\ Inv s' /\
           total s' < total (bst (contrib m + list_sum (map contrib R)) (m :: R))).
      { intros i. destruct (step c _ (S i)) eqn:E; [|left; reflexivity|].
        all: right; rewrite <- E; apply (rest_step m R i); auto; right; rewrite E; discriminate. }
      pose proof HM as (N & X & C & RS).
      destruct (forallb idle R) eqn:ID.
      * assert (S0 : step c (bst (contrib m + list_sum (map contrib R)) (m :: R)) 0
                    = Next (bst (contrib m + list_sum (map contrib R)) (with_code m [] :: R))).
        { unfold step. cbn [bst g_threads nth_error g_spawned negb andb Nat.eqb tl]. rewrite N, ID. reflexivity. }
        assert (IV : Inv (bst (contrib m + list_sum (map contrib R)) (with_code m [] :: R))).
        { pose proof (idle_ended R HR ID) as EN. rewrite (ended_contrib R EN). unfold contrib. rewrite N, C.
          unfold with_code. rewrite C, X. apply (c0 (t_alloc m) (t_comm m) (t_lost m) R EN RS). }
        assert (TT : total (bst (contrib m + list_sum (map contrib R)) (with_code m [] :: R)) < total (bst (contrib m + list_sum (map contrib R)) (m :: R))).
        { unfold total, weight, with_code. cbn [bst g_threads map t_now t_next]. rewrite N. unfold list_sum. cbn [fold_right length]. lia. }
        split; [|left; eauto]. intros [|i]; [right; eauto|apply O].
      * split.
        -- intros [|i]; [|apply O]. left. unfold step. cbn [bst g_threads nth_error g_spawned negb andb Nat.eqb tl]. rewrite N, ID. reflexivity.
        -- left. assert (EX : exists i t, nth_error R i = Some t /\ idle t = false).
           { clear -ID. induction R as [|t R IH]; cbn in ID; [discriminate|]. destruct (idle t) eqn:E.
             - destruct (IH ID) as (i & t' & H). exists (S i), t'. exact H.
             - exists 0, t. auto. }
           destruct EX as (i & t & H). destruct (rest_step m R i (or_intror HM) HR) as (s' & S1 & _); [left; eauto|]. eauto.
  - eapply main_only; [right; exact F|reflexivity|apply (c1 a m l R F RS)|]. unfold total, shared, weight, mk, cost; cbn [set_thread lset with_code g_threads map t_now t_next length code_of list_sum fold_right]. lia.
  - eapply main_only; [right; exact F|reflexivity|apply (c2 a m l R F RS)|]. tot.
  - eapply main_only; [right; exact F|reflexivity|apply (c3 a m l R F RS)|]. tot.
  - unfold fin. unfold res in RS. destruct (c_mpi c) eqn:M.
    + destruct RS as (-> & -> & ->). eapply main_only with (s' := shared 0 1 0 buf2 own1 mpi2 true (mk 0 true false 0 [WAllocFin; WLast] [] :: R)); [right; exact F| |apply (c4 R F M)|].
      * unfold step, shared, mk. cbn. unfold buf1, buf2, own1, mpi2, mpi1. rewrite M. destruct (c_app c); reflexivity.
      * tot.
    + eapply main_only; [right; exact F|reflexivity| |tot].
      assert (Q : Inv (shared 0 1 1 buf2 own1 mpi2 true (mk 0 a m l [] [] :: R))) by (apply c6; [exact F|unfold res; rewrite M; lia]).
      unfold buf1, buf2, own1, mpi2, mpi1 in *. rewrite M in *. exact Q.
  - eapply main_only; [right; exact F|reflexivity|apply (c5 false false 0 R F)|tot]. unfold res. rewrite M. auto.
  - eapply main_only; [right; exact F|reflexivity|apply (c6 a m l R F RS)|tot].
  - split.
    + intros [|i]; left; [reflexivity|]. unfold step, shared. cbn [g_threads nth_error g_spawned Nat.eqb negb andb].
      destruct (nth_error R i) as [x|] eqn:E; [|reflexivity]. rewrite Forall_forall in F. destruct (F x (nth_error_In _ _ E)) as (-> & -> & _). reflexivity.
    + right. unfold final, shared. cbn [g_threads g_count g_once g_gone g_buf g_mpi]. split.
      * cbn [forallb]. apply andb_true_intro. split; [reflexivity|]. apply forallb_forall. intros t Ht. rewrite Forall_forall in F.
        destruct (F t Ht) as (E1 & E2 & _). unfold idle. rewrite E1, E2. reflexivity.
      * repeat split; try (unfold buf2; destruct (c_mpi c); discriminate). constructor; [split; [reflexivity|exact RS]|].
        eapply Forall_impl; [|exact F]. intros t (_ & _ & E3 & E4). auto.
Qed.

Lemma reach_inv rest k s : Forall (fun p => balanced 0 0 p = true) rest ->
  reach c (main_program body :: rest) k s -> Inv s /\ k + total s <= total (start c (main_program body :: rest)).
Proof.
  intros F H. induction H as [|k s i t H (I & L) E].
  - split; [|lia]. unfold start. cbn [map]. apply i0. apply Forall_map. eapply Forall_impl; [|exact F]. intros p Hp. exists p. auto.
  - destruct (Inv_good s I) as [G _]. destruct (G i) as [B|(s' & E' & I' & L')]; [congruence|]. assert (s' = t) by congruence. subst. split; [exact I'|lia].
Qed.
Lemma usable_inv s i t : Inv s -> nth_error (g_threads s) i = Some t -> t_now t = [] -> 0 < t_count t -> usable c s t = true.
Proof.
  intros I E N C.
  assert (U : forall k sp R (t : thread), res 1 (t_alloc t) (t_comm t) (t_lost t) -> usable c (shared k 1 0 buf1 own1 mpi1 sp R) t = true).
  { intros k sp R t0 RS. unfold usable, shared, res in *. cbn [g_once g_gone g_mpi]. unfold mpi1. destruct (c_mpi c).
    - destruct RS as (-> & -> & _). rewrite orb_true_r. reflexivity.
    - rewrite RS by lia. reflexivity. }
  assert (FR : forall R j, Forall fresh R -> nth_error R j = Some t -> False).
  { intros R j F H. rewrite Forall_forall in F. destruct (F t (nth_error_In _ _ H)) as (p & _ & ->). cbn in C. lia. }
  assert (EN : forall R j, Forall ended R -> nth_error R j = Some t -> False).
  { intros R j F H. rewrite Forall_forall in F. destruct (F t (nth_error_In _ _ H)) as (_ & _ & Q & _). lia. }
  assert (R1 : forall n, 0 < n -> forall a m l, res n a m l -> res 1 a m l).
  { intros [|n] P a m l; [lia|]. unfold res. cbn. destruct (c_mpi c); auto. }
  assert (TI : forall b T k R, tinv b T t -> usable c (bst k R) t = true).
  { intros b T k R (n & p & _ & _ & A). rewrite N in A. inversion A as [a m l R0 X1 X2| | | | | | | | | | |]; subst.
    apply (U k true R t). apply (R1 (b + n)); [lia|assumption]. }
  inversion I as [R F|R F|R F|R F|R F|R F M|R F|R F|m R HM HR|a m l R F RS|a m l R F RS|a m l R F RS|a m l R F RS|R F M|a m l R F RS|a m l R F RS]; subst;
    destruct i as [|i]; cbn [shared bst g_threads nth_error] in E; try solve [exfalso; eauto];
    try (injection E as <-; cbn in N, C; try lia; try discriminate N).
  - apply U. cbn. unfold res. destruct (c_mpi c); auto.
  - destruct HM as [HM|(Q & _)]; [|congruence]. eapply TI; eauto.
  - eapply TI. rewrite Forall_forall in HR. apply HR. eapply nth_error_In; eauto.
  - apply U. exact RS.
Qed.
End Run.
Lemma usable_reach body rest k s i t : balanced 1 0 body = true -> Forall (fun p => balanced 0 0 p = true) rest ->
  reach c (main_program body :: rest) k s -> nth_error (g_threads s) i = Some t -> t_now t = [] -> 0 < t_count t -> usable c s t = true.
Proof. intros B F R. destruct (reach_inv body B rest k s F R) as [I _]. apply (usable_inv body s i t I). Qed.
End Lib.

Fixpoint runs (c : config) (s : lib) (l : list nat) : option lib :=
  match l with
  | [] => Some s
  | i :: l => match step c s i with Next s' => runs c s' l | _ => None end
  end.
Lemma runs_reach c progs l : forall k s t, reach c progs k s -> runs c s l = Some t -> reach c progs (k + length l) t.
Proof.
  induction l as [|i l IH]; intros k s t R E; cbn in E |- *.
  - injection E as <-. rewrite Nat.add_0_r. exact R.
  - destruct (step c s i) as [| |s'] eqn:S1; try discriminate. replace (k + S (length l)) with (S k + length l) by lia.
    eapply IH; [|exact E]. econstructor; eassumption.
Qed.
Lemma runs_start c progs l t : runs c (start c progs) l = Some t -> reach c progs (length l) t.
Proof. intros H. apply (runs_reach c progs l 0 _ t (r_start c progs) H). Qed.
