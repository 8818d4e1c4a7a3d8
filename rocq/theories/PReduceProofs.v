(** Proofs for PReduce.v. *)
From Coq Require Import List Arith ZArith Lia Bool.
From Verif Require Import Base Reduce ReduceProofs Dist Traversal Map ParAssign DBlock DBlockProofs PReduce.
Import ListNotations.
Local Open Scope nat_scope.

Lemma ext_cases (ext : list nat) : (exists n0, ext = [n0]) \/ (exists n0 n1, ext = [n0;n1]) \/ (exists n0 n1 n2, ext = [n0;n1;n2]) \/ (forall o, ~ order_of o ext).
Proof. destruct ext as [|n0 [|n1 [|n2 [|n3 e]]]]; [do 3 right; intros o; exact (fun H => H)|left; eauto|right; left; eauto|right; right; left; eauto|do 3 right; intros o; exact (fun H => H)]. Qed.

Section P.
Context {V : Type} (D : nat -> amap) (U : nat -> Prop) (X : nat -> list nat -> V).
Notation prog := (prog V).
(** What remains to be shown of a computation: run alone it goes on with [x], and it stays within the blocks. *)
Definition good {T} (c : (T -> prog) -> prog) (x : T) : Prop :=
  (forall k, seq_final V X (c k) = seq_final V X (k x)) /\ (forall k, (forall y, prog_ok V D U (k y)) -> prog_ok V D U (c k)).

Lemma get_ok ext {A} (e : dexpr V A) i : conforms D U ext e -> in_ext ext i -> good (p_get e i) (element X e i).
Proof.
  intros C I. induction e as [v|A x|A B f e IH|A B C' f b e1 IH1 e2 IH2]; cbn [p_get element conforms] in *.
  - destruct C as [Hu He]. split; [reflexivity|]. intros k Hk. cbn. split; [exact Hu|]. split; [rewrite He; exact I|exact Hk].
  - split; [reflexivity|]. intros k Hk. apply Hk.
  - specialize (IH C). split.
    + intros k. rewrite (proj1 IH). reflexivity.
    + intros k Hk. apply (proj2 IH). intros y. apply Hk.
  - destruct C as [C1 C2]. specialize (IH1 C1). specialize (IH2 C2). destruct b; split.
    + intros k. rewrite (proj1 IH1), (proj1 IH2). reflexivity.
    + intros k Hk. apply (proj2 IH1). intros x. apply (proj2 IH2). intros y. apply Hk.
    + intros k. rewrite (proj1 IH2), (proj1 IH1). reflexivity.
    + intros k Hk. apply (proj2 IH2). intros x. apply (proj2 IH1). intros y. apply Hk.
Qed.

Lemma for_ok {T} (f : nat -> T -> (T -> prog) -> prog) (g : nat -> T -> option T) (h : nat -> T -> T) n : forall i s,
  (forall j t, i <= j < i + n -> g j t = Some (h j t) /\ good (f j t) (h j t)) ->
  exists r, loop g i n s = Some r /\ good (p_for f i n s) r.
Proof.
  induction n as [|n IH]; intros i s H; cbn [loop p_for].
  - exists s. split; [reflexivity|]. split; [reflexivity|]. intros k Hk. apply Hk.
  - destruct (H i s ltac:(lia)) as [G P]. rewrite G. cbn [bind].
    assert (H' : forall j t, i + 1 <= j < i + 1 + n -> g j t = Some (h j t) /\ good (f j t) (h j t)) by (intros j t Hj; apply H; lia).
    destruct (IH (i + 1) (h i s) H') as (r & E & Q). exists r. split; [exact E|]. split.
    + intros k. rewrite (proj1 P). apply (proj1 Q).
    + intros k Hk. apply (proj2 P). intros y. destruct (IH (i + 1) y H') as (r' & _ & Q'). apply (proj2 Q'). exact Hk.
Qed.
(** The same with existence of the value. *)
Lemma for_ok' {T} (f : nat -> T -> (T -> prog) -> prog) (g : nat -> T -> option T) n i s :
  (forall j t, i <= j < i + n -> exists r, g j t = Some r /\ good (f j t) r) ->
  exists r, loop g i n s = Some r /\ good (p_for f i n s) r.
Proof.
  intros H. apply (for_ok f g (fun j t => match g j t with Some r => r | None => t end)).
  intros j t Hj. destruct (H j t Hj) as (r & E & Q). rewrite E. split; [reflexivity|exact Q].
Qed.

Section R.
Context {A S R : Type} (F : functor A S R) (get : list nat -> (A -> prog) -> prog) (w : list nat -> A) (ext : list nat).
Hypothesis G : forall i, in_ext ext i -> good (get i) (w i).
Let sget (i : list nat) : option A := Some (w i).

Lemma brk_ok ix n : forall i s, (forall j, i <= j < i + n -> in_ext ext (ix j)) ->
  exists r, brk_loop F (fun j => sget (ix j)) i n s = Some r /\ good (p_brk F get ix i n s) r.
Proof.
  induction n as [|n IH]; intros i s H; cbn [brk_loop p_brk].
  - exists s. split; [reflexivity|]. split; [reflexivity|]. intros k Hk. apply Hk.
  - unfold sget at 1. cbn [bind]. pose proof (G (ix i) (H i ltac:(lia))) as P.
    assert (H' : forall j, i + 1 <= j < i + 1 + n -> in_ext ext (ix j)) by (intros j Hj; apply H; lia).
    assert (Q2 : forall k, (forall y, prog_ok V D U (k y)) -> forall x, prog_ok V D U (if done F (update F s x) then k (update F s x) else p_brk F get ix (i + 1) n (update F s x) k)).
    { intros k Hk x. destruct (done F (update F s x)); [apply Hk|]. destruct (IH (i + 1) (update F s x) H') as (r' & _ & Q'). apply (proj2 Q'). exact Hk. }
    cbn zeta. destruct (done F (update F s (w (ix i)))) eqn:Ed.
    + exists (update F s (w (ix i))). split; [reflexivity|]. split.
      * intros k. rewrite (proj1 P). rewrite Ed. reflexivity.
      * intros k Hk. apply (proj2 P). apply Q2. exact Hk.
    + destruct (IH (i + 1) (update F s (w (ix i))) H') as (r & E & Q). exists r. split; [exact E|]. split.
      * intros k. rewrite (proj1 P). rewrite Ed. apply (proj1 Q).
      * intros k Hk. apply (proj2 P). apply Q2. exact Hk.
Qed.

Lemma fin_ok (c : (S -> prog) -> prog) r (f : S -> R) : good c r -> good (fun k => c (fun s => k (f s))) (f r).
Proof. intros Q. split; [intros k; apply (proj1 Q)|]. intros k Hk. apply (proj2 Q). intros y. apply Hk. Qed.

Lemma reduce_good o : order_of o ext -> exists r, reduce F o sget ext = Some r /\ good (p_reduce F get o ext) r.
Proof.
  intros O. destruct (ext_cases ext) as [(n0 & Ee)|[(n0 & n1 & Ee)|[(n0 & n1 & n2 & Ee)|Ee]]]; [| | |exfalso; exact (Ee o O)]; rewrite Ee in O |- *; cbn in O.
  - subst o. unfold reduce, reduce1, p_reduce.
    destruct (brk_ok (fun i => [i]) n0 0 (initial F)) as (r & E & Q); [intros j Hj; rewrite Ee; constructor; [lia|constructor]|].
    rewrite E. cbn [bind]. eexists. split; [reflexivity|]. exact (fin_ok _ r (fun s => value F s n0) Q).
  - assert (L : forall d1 d2, (d1 = 0 /\ d2 = 1) \/ (d1 = 1 /\ d2 = 0) -> exists r, reduce F [d1;d2] sget [n0;n1] = Some r /\ good (p_reduce F get [d1;d2] [n0;n1]) r).
    { intros d1 d2 Hd. replace (reduce F [d1;d2] sget [n0;n1]) with (reduce2 F d1 d2 sget [n0;n1]) by (destruct d1; reflexivity). unfold reduce2.
      replace (p_reduce F get [d1;d2] [n0;n1]) with (fun k : R -> prog => p_for (fun x => p_brk F get (fun y => lset (lset [0;0] d1 x) d2 y) 0 (nth d2 [n0;n1] 0)) 0 (nth d1 [n0;n1] 0) (initial F) (fun s => k (value F s (nth 0 [n0;n1] 0 * nth 1 [n0;n1] 0)))) by (destruct d1; reflexivity).
      destruct (for_ok' (fun x => p_brk F get (fun y => lset (lset [0;0] d1 x) d2 y) 0 (nth d2 [n0;n1] 0)) (fun x s => brk_loop F (fun y => sget (lset (lset [0;0] d1 x) d2 y)) 0 (nth d2 [n0;n1] 0) s) (nth d1 [n0;n1] 0) 0 (initial F)) as (r & E & Q).
      - intros j t Hj. apply (brk_ok (fun y => lset (lset [0;0] d1 j) d2 y)). intros y Hy. rewrite Ee. destruct Hd as [[-> ->]|[-> ->]]; cbn in *; repeat constructor; lia.
      - rewrite E. cbn [bind]. eexists. split; [reflexivity|]. exact (fin_ok _ r (fun s => value F s (nth 0 [n0;n1] 0 * nth 1 [n0;n1] 0)) Q). }
    destruct O as [-> | ->]; apply L; auto.
  - assert (L : forall d1 d2 d3, In [d1;d2;d3] [[0;1;2];[0;2;1];[1;0;2];[1;2;0];[2;0;1];[2;1;0]] -> exists r, reduce F [d1;d2;d3] sget [n0;n1;n2] = Some r /\ good (p_reduce F get [d1;d2;d3] [n0;n1;n2]) r).
    { intros d1 d2 d3 Hd.
      replace (reduce F [d1;d2;d3] sget [n0;n1;n2]) with (reduce3 F d1 d2 d3 sget [n0;n1;n2]) by (destruct d1; reflexivity). unfold reduce3.
      replace (p_reduce F get [d1;d2;d3] [n0;n1;n2]) with (fun k : R -> prog => p_for (fun x => p_for (fun y => p_brk F get (fun z => lset (lset (lset [0;0;0] d1 x) d2 y) d3 z) 0 (nth d3 [n0;n1;n2] 0)) 0 (nth d2 [n0;n1;n2] 0)) 0 (nth d1 [n0;n1;n2] 0) (initial F) (fun s => k (value F s (nth 0 [n0;n1;n2] 0 * nth 1 [n0;n1;n2] 0 * nth 2 [n0;n1;n2] 0)))) by (destruct d1; reflexivity).
      destruct (for_ok' (fun x => p_for (fun y => p_brk F get (fun z => lset (lset (lset [0;0;0] d1 x) d2 y) d3 z) 0 (nth d3 [n0;n1;n2] 0)) 0 (nth d2 [n0;n1;n2] 0))
        (fun x s => loop (fun y s => brk_loop F (fun z => sget (lset (lset (lset [0;0;0] d1 x) d2 y) d3 z)) 0 (nth d3 [n0;n1;n2] 0) s) 0 (nth d2 [n0;n1;n2] 0) s) (nth d1 [n0;n1;n2] 0) 0 (initial F)) as (r & E & Q).
      - intros j t Hj. apply for_ok'. intros j' t' Hj'. apply (brk_ok (fun z => lset (lset (lset [0;0;0] d1 j) d2 j') d3 z)). intros z Hz. rewrite Ee.
        cbn [In] in Hd. repeat (destruct Hd as [Hd|Hd]; [injection Hd as <- <- <-; cbn in *; repeat constructor; lia|]). destruct Hd.
      - rewrite E. cbn [bind]. eexists. split; [reflexivity|]. exact (fin_ok _ r (fun s => value F s (nth 0 [n0;n1;n2] 0 * nth 1 [n0;n1;n2] 0 * nth 2 [n0;n1;n2] 0)) Q). }
    cbn [In] in L. destruct O as [-> |[-> |[-> |[-> |[-> | ->]]]]]; apply L; auto 10.
Qed.
End R.

Section Ix.
Context {A K : Type} (key : A -> K) (better : K -> K -> bool) (get : list nat -> (A -> prog) -> prog) (w : list nat -> A) (ext : list nat).
Hypothesis G : forall i, in_ext ext i -> good (get i) (w i).
Let sget (i : list nat) : option A := Some (w i).
Lemma visit_good i s : in_ext ext i -> exists r, visit key better sget i s = Some r /\ good (p_visit key better get i s) r.
Proof.
  intros I. eexists. split; [reflexivity|]. split.
  - intros k. unfold p_visit. rewrite (proj1 (G i I)). reflexivity.
  - intros k Hk. apply (proj2 (G i I)). intros y. apply Hk.
Qed.
Lemma first_good {T} i (c : A -> (T -> prog) -> prog) (f : A -> option T) : in_ext ext i -> (forall x, exists r, f x = Some r /\ good (c x) r) ->
  exists r, (x <- sget i ;; f x) = Some r /\ good (fun k => get i (fun x => c x k)) r.
Proof.
  intros I H. destruct (H (w i)) as (r & E & Q). exists r. split; [exact E|]. split.
  - intros k. rewrite (proj1 (G i I)). apply (proj1 Q).
  - intros k Hk. apply (proj2 (G i I)). intros y. destruct (H y) as (r' & _ & Q'). apply (proj2 Q'). exact Hk.
Qed.
Lemma idx_good o : order_of o ext -> Forall (fun n => 0 < n) ext -> exists r, reduce_idx key better o sget ext = Some r /\ good (p_reduce_idx key better get o ext) r.
Proof.
  intros O N. destruct (ext_cases ext) as [(n0 & Ee)|[(n0 & n1 & Ee)|[(n0 & n1 & n2 & Ee)|Ee]]]; [| | |exfalso; exact (Ee o O)]; rewrite Ee in O, N |- *; cbn in O.
  - subst o. inversion_clear N. cbn [reduce_idx p_reduce_idx]. apply first_good; [rewrite Ee; repeat constructor; lia|]. intros x. apply for_ok'. intros j t Hj.
    apply visit_good. rewrite Ee. repeat constructor; lia.
  - inversion_clear N as [|? ? N0 N']. inversion_clear N' as [|? ? N1 _].
    destruct O as [-> | ->]; (cbn [reduce_idx p_reduce_idx]; apply first_good; [rewrite Ee; repeat constructor; lia|]; intros x; unfold for2, p_for2; apply for_ok'; intros j t Hj; apply for_ok'; intros j' t' Hj'; apply visit_good; rewrite Ee; repeat constructor; lia).
  - inversion_clear N as [|? ? N0 N']. inversion_clear N' as [|? ? N1 N2']. inversion_clear N2' as [|? ? N2 _].
    destruct O as [-> |[-> |[-> |[-> |[-> | ->]]]]]; (cbn [reduce_idx p_reduce_idx]; apply first_good; [rewrite Ee; repeat constructor; lia|]; intros x; unfold for3, p_for3; apply for_ok'; intros j t Hj; apply for_ok'; intros j' t' Hj'; apply for_ok'; intros j'' t'' Hj''; apply visit_good; rewrite Ee; repeat constructor; lia).
Qed.
End Ix.

Lemma good_gives n {T} (c : (T -> prog) -> prog) x : (forall v, U v -> amap_ok (D v)) -> (forall v, U v -> forall q, In q (a_pvec (D v)) -> q < n) -> good c x -> gives n D U X c x.
Proof.
  intros M B [G1 G2] rest Hr m sched Hm Hs. destruct (elements_ok V n D U X (c rest) m sched M B (G2 rest Hr) Hm Hs) as (s & E & P1 & P2 & P3).
  exists s. split; [exact E|]. split; [|split; [exact P2|exact P3]]. intros r Hr' Hd. rewrite <- (G1 rest). apply (proj2 (P1 r Hr' Hd)).
Qed.

Lemma d_reduce_ok n {A S R} (F : functor A S R) o ext (e : dexpr V A) r : (forall v, U v -> amap_ok (D v)) -> (forall v, U v -> forall q, In q (a_pvec (D v)) -> q < n) ->
  order_of o ext -> conforms D U ext e -> reduce F o (fun i => Some (element X e i)) ext = Some r -> gives n D U X (d_reduce F o ext e) r.
Proof.
  intros M B O C E. apply good_gives; [exact M|exact B|]. destruct (reduce_good F (p_get e) (element X e) ext (fun i => get_ok ext e i C) o O) as (r' & E' & Q).
  rewrite E' in E. injection E as ->. exact Q.
Qed.
Lemma d_reduce_idx_ok n {A K} (key : A -> K) better o ext (e : dexpr V A) r : (forall v, U v -> amap_ok (D v)) -> (forall v, U v -> forall q, In q (a_pvec (D v)) -> q < n) ->
  order_of o ext -> Forall (fun n => 0 < n) ext -> conforms D U ext e -> reduce_idx key better o (fun i => Some (element X e i)) ext = Some r -> gives n D U X (d_reduce_idx key better o ext e) r.
Proof.
  intros M B O N C E. apply good_gives; [exact M|exact B|]. destruct (idx_good key better (p_get e) (element X e) ext (fun i => get_ok ext e i C) o O N) as (r' & E' & Q).
  rewrite E' in E. injection E as ->. exact Q.
Qed.
End P.
