(** Lemmas about the timers of Timer.v. *)
From Coq Require Import ZArith List Lia Bool Arith QArith.
From Coq Require Import SpecFloat.
From Verif Require Import Base Timer.
Import ListNotations.
Open Scope Z_scope.

Lemma int64_ok x : - 2 ^ 63 <= x < 2 ^ 63 -> int64 x = Some x.
Proof.
  intros H. unfold int64. replace (- 2 ^ 63 <=? x) with true by (symmetry; apply Z.leb_le; lia).
  replace (x <? 2 ^ 63) with true by (symmetry; apply Z.ltb_lt; lia). reflexivity.
Qed.

Lemma posix_ok ts : a_time ts -> now_posix ts = Some (nanosec ts).
Proof. intros [H K]. unfold now_posix, nanosec. rewrite int64_ok by lia. cbn [bind]. apply int64_ok. lia. Qed.

Lemma elapsed_ok s t : a_time s -> a_time t ->
  elapsed (Z * Z) now_posix (nanosec s) t = Some (inject_Z (nanosec t - nanosec s) / inject_Z 1000000000)%Q.
Proof.
  intros Hs Ht. unfold elapsed. rewrite (posix_ok t Ht). cbn [bind].
  rewrite int64_ok; [reflexivity|]. destruct Hs as [Hs Hs'], Ht as [Ht Ht']. unfold nanosec. lia.
Qed.

Lemma last_start_time : forall h s, a_time s -> Forall (fun c => a_time (snd c)) h -> a_time (last_start s h).
Proof.
  induction h as [|[c t] h IH]; intros s Hs Hh; cbn [last_start]; [exact Hs|].
  inversion Hh as [|? ? Ht Hh']; subst. destruct c; apply IH; assumption.
Qed.

Lemma calls_ok : forall h s, a_time s -> Forall (fun c => a_time (snd c)) h ->
  exists l, calls (Z * Z) now_posix (nanosec s) h = Some l /\ length l = length h /\
  forall k c t, nth_error h k = Some (c, t) -> nth_error l k = Some (due (last_start s (firstn k h)) c t).
Proof.
  induction h as [|[c t] h IH]; intros s Hs Hh.
  - exists []. split; [reflexivity|]. split; [reflexivity|]. intros [|k] c t E; discriminate.
  - inversion Hh as [|? ? Ht Hh']; subst. cbn [snd] in Ht. destruct c; cbn [calls].
    + rewrite (posix_ok t Ht). cbn [bind]. destruct (IH t Ht Hh') as [l [E [L K]]]. rewrite E. cbn [bind].
      eexists. split; [reflexivity|]. split; [cbn [length]; lia|].
      intros [|k] c u Ek; cbn [nth_error firstn last_start] in *.
      * injection Ek as <- <-. reflexivity.
      * apply K. exact Ek.
    + rewrite elapsed_ok by assumption. cbn [bind]. destruct (IH s Hs Hh') as [l [E [L K]]]. rewrite E. cbn [bind].
      eexists. split; [reflexivity|]. split; [cbn [length]; lia|].
      intros [|k] c u Ek; cbn [nth_error firstn last_start] in *.
      * injection Ek as <- <-. reflexivity.
      * apply K. exact Ek.
Qed.

Lemma timer_ok h s : a_time s -> Forall (fun c => a_time (snd c)) h ->
  exists l, timer (Z * Z) now_posix s h = Some l /\ length l = length h /\
  forall k c t, nth_error h k = Some (c, t) -> nth_error l k = Some (due (last_start s (firstn k h)) c t).
Proof. intros Hs Hh. unfold timer. rewrite (posix_ok s Hs). cbn [bind]. apply calls_ok; assumption. Qed.

Lemma forward_weaken s s' h : nanosec s' <= nanosec s -> forward s h -> forward s' h.
Proof. destruct h as [|[c t] h]; cbn [forward]; [tauto|]. intros H [K L]. split; [lia|exact L]. Qed.

Lemma forward_last : forall h s k c t, forward s h -> nth_error h k = Some (c, t) ->
  nanosec (last_start s (firstn k h)) <= nanosec t.
Proof.
  induction h as [|[c0 x] h IH]; intros s k c t F E; [destruct k; discriminate|].
  destruct F as [F1 F2]. destruct k as [|k]; cbn [nth_error firstn last_start] in *.
  - injection E as <- <-. exact F1.
  - destruct c0; apply (IH _ k c t); try exact E; [exact F2|]. apply (forward_weaken x); assumption.
Qed.

Lemma timer_forward h s : a_time s -> Forall (fun c => a_time (snd c)) h -> forward s h ->
  exists l, timer (Z * Z) now_posix s h = Some l /\ forall q, In (Seconds q) l -> (0 <= q)%Q.
Proof.
  intros Hs Hh F. destruct (timer_ok h s Hs Hh) as [l [E [L K]]]. exists l. split; [exact E|].
  intros q I. apply In_nth_error in I. destruct I as [k Ek].
  assert (Hk : (k < length h)%nat) by (rewrite <- L; apply nth_error_Some; congruence).
  destruct (nth_error h k) as [[c t]|] eqn:Eh; [|apply nth_error_None in Eh; lia].
  rewrite (K k c t Eh) in Ek. pose proof (forward_last h s k c t F Eh) as G.
  destruct c; cbn [due] in Ek; [discriminate|]. injection Ek as <-.
  set (d := nanosec t - nanosec (last_start s (firstn k h))). assert (0 <= d) by (subst d; lia). clearbody d.
  unfold Qle, inject_Z, Qdiv, Qmult, Qinv. cbn. lia.
Qed.

(** Two readings without a restart between them differ by the time between. *)
Lemma timer_differences h s k1 k2 t1 t2 : a_time s -> Forall (fun c => a_time (snd c)) h ->
  (k1 <= k2)%nat -> nth_error h k1 = Some (Elapsed, t1) -> nth_error h k2 = Some (Elapsed, t2) ->
  (forall k c t, (k1 <= k <= k2)%nat -> nth_error h k = Some (c, t) -> c = Elapsed) ->
  exists l q1 q2, timer (Z * Z) now_posix s h = Some l /\
    nth_error l k1 = Some (Seconds q1) /\ nth_error l k2 = Some (Seconds q2) /\
    ((q2 - q1) * inject_Z 1000000000 == inject_Z (nanosec t2 - nanosec t1))%Q.
Proof.
  intros Hs Hh Hk E1 E2 Hno. destruct (timer_ok h s Hs Hh) as [l [E [L K]]].
  assert (S : last_start s (firstn k2 h) = last_start s (firstn k1 h)).
  { clear E L K l E1 E2 Hs Hh. revert s k1 k2 Hk Hno.
    induction h as [|[c t] h IH]; intros s k1 k2 Hk Hno; [rewrite !firstn_nil; reflexivity|].
    destruct k1 as [|k1]; destruct k2 as [|k2]; try (exfalso; lia); try reflexivity.
    - cbn [firstn last_start]. pose proof (Hno 0%nat c t (ltac:(lia)) eq_refl) as ->.
      assert (W := IH s 0%nat k2 (Nat.le_0_l k2)). cbn [firstn last_start] in W. apply W.
      intros k c' t' B Ek. apply (Hno (S k) c' t'); [lia|exact Ek].
    - cbn [firstn last_start]. destruct c; apply IH; try lia; intros k c' t' B Ek; apply (Hno (S k) c' t'); try lia; exact Ek. }
  exists l. do 2 eexists. split; [exact E|]. split; [apply (K _ _ _ E1)|]. split; [apply (K _ _ _ E2)|].
  rewrite S. set (a := nanosec _). set (b := nanosec t1). set (c := nanosec t2).
  replace (c - b) with ((c - a) - (b - a)) by lia.
  unfold Qeq, inject_Z, Qdiv, Qmult, Qinv, Qminus, Qplus, Qopp. cbn. lia.
Qed.

Lemma rate_found : forall before r after d, (forall l, In l before -> l = Other) ->
  read_clock_rate d (before ++ Rate r :: after) = r.
Proof.
  induction before as [|l before IH]; intros r after d H; cbn [app read_clock_rate]; [reflexivity|].
  rewrite (H l) by (left; reflexivity). apply IH. intros x I. apply H. right. exact I.
Qed.

Lemma before_init_undefined hi lo : now_tsc before_init hi lo = None.
Proof. unfold now_tsc, before_init. destruct (float_of _); reflexivity. Qed.
