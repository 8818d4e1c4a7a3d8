From Coq Require Import List Arith ZArith Lia Bool.
From Verif Require Import Base Dist Domain Traversal Map ParAssign ParSeq ParSeqProofs Selgen ParFun.
Import ListNotations.
Local Open Scope nat_scope.

Definition plain (s : fstmt) : stmt Z := {| s_lhs := f_lhs s; s_rhs := shape (f_rhs s); s_temps := f_temps s |}.

Lemma rebuilt_shape e : no_settings e -> forall J p, rebuilt J p e = shape e.
Proof.
  induction e; cbn; intros H J p; try contradiction; auto.
  - f_equal; auto.
  - destruct H. f_equal; auto.
  - destruct H as (? & ? & ?). f_equal; auto.
Qed.
Lemma rebuilt_plain J ss : Forall (fun s => no_settings (f_rhs s)) ss -> forall k, rebuilt_all J k ss = map plain ss.
Proof.
  induction 1 as [|s ss H _ IH]; intros k; cbn; [reflexivity|]. rewrite IH. f_equal.
  unfold rebuilt_stmt, plain. rewrite rebuilt_shape by exact H. reflexivity.
Qed.
Lemma value_shape X g e : no_settings e -> value X g e = geval X g (shape e).
Proof.
  induction e; cbn; intros H; try contradiction; auto.
  - f_equal; auto.
  - destruct H. f_equal; auto.
  - destruct H as (? & ? & ?). f_equal; auto.
Qed.
Lemma geval_ext {V} (X Y : nat -> list nat -> V) g e : (forall v g, X v g = Y v g) -> geval X g e = geval Y g e.
Proof. intros H. induction e; cbn; congruence. Qed.
Lemma run_ext {V} ss : forall (X Y : nat -> list nat -> V), (forall v g, X v g = Y v g) -> forall v g, run X ss v g = run Y ss v g.
Proof.
  induction ss as [|s ss IH]; intros X Y H v g; cbn; [apply H|].
  apply IH. intros w h. unfold run_stmt. destruct (w =? s_lhs s); [apply geval_ext, H|apply H].
Qed.
Lemma outcome_run ss : Forall (fun s => no_settings (f_rhs s)) ss -> forall X v g, outcome X ss v g = run X (map plain ss) v g.
Proof.
  induction 1 as [|s ss H _ IH]; intros X v g; cbn [outcome map]; [reflexivity|].
  rewrite IH. change (run X (plain s :: map plain ss)) with (run (run_stmt X (plain s)) (map plain ss)).
  apply run_ext. intros w h. unfold run_stmt. cbn. destruct (w =? f_lhs s); [apply value_shape, H|reflexivity].
Qed.
Lemma holds_ext {V} a st (M : nat -> Z -> V) X Y r : (forall g, X g = Y g) -> holds a st M X r -> holds a st M Y r.
Proof. intros E H sb ext l g E1 E2 E3 E4. rewrite <- E. eapply H; eassumption. Qed.

Lemma program_ok :
  forall (eager : nat -> nat -> nat -> bool) n D O buf (U : nat -> Prop) I J (ss : list fstmt)
    (M : nat -> nat -> Z -> Z) (X : nat -> list nat -> Z),
  (forall v, U v -> var_ok n (O v) (D v)) ->
  (forall v, In v I -> U v) ->
  admissible n D O U I ss ->
  Forall (fun s => no_settings (f_rhs s)) ss ->
  (forall v, In v I -> forall r, holds (v_map (D v)) (v_st (D v)) (fun r => M r v) (X v) r) ->
  exists P N,
  (forall r, r < n -> fspmd D O buf J ss r = Some (P r)) /\
  (forall r, n <= r -> P r = []) /\
  forall k s, gsteps eager k {| gprog := P; gmem := M; gchan := fun _ _ => [] |} s ->
    k <= N /\
    ((exists r t, pstep eager r s = Some t) \/
     ((forall r, gprog s r = []) /\ (forall p q, gchan s p q = []) /\
      (forall v, In v (map f_lhs ss) \/ In v I ->
         forall r, holds (v_map (D v)) (v_st (D v)) (fun r => gmem s r v) (outcome X ss v) r) /\
      (forall r v o, U v ->
         (In v (map f_lhs ss) -> forall g, ~ element_at (v_map (D v)) (v_st (D v)) r o g) ->
         gmem s r v o = M r v o))).
Proof.
  intros eager n D O buf U I J ss M X UV IU PO NS HI.
  destruct (prog_ends eager n D O buf U UV (map plain ss) I M X PO IU HI) as (P & N & H1 & H2 & H3).
  assert (LM : map s_lhs (map plain ss) = map f_lhs ss) by (rewrite map_map; reflexivity).
  rewrite LM in H3.
  exists P, N. split; [|split; [exact H2|]].
  - intros r Hr. unfold fspmd. rewrite rebuilt_plain by exact NS. apply H1, Hr.
  - intros k s S. destruct (H3 k s S) as (K & [C|(A & B & C & E)]); (split; [exact K|]); [left; exact C|right].
    split; [exact A|]. split; [exact B|]. split; [|exact E].
    intros v Hv r. eapply holds_ext; [|apply C, Hv]. intros g. symmetry. apply outcome_run, NS.
Qed.

Lemma rebuilt_like e e' : like e e' -> forall J p, rebuilt J p e = rebuilt J p e'.
Proof. induction 1; intros J p; cbn; f_equal; auto. Qed.
Lemma program_like D O buf J ss ss' : Forall2 like_stmt ss ss' -> forall r, fspmd D O buf J ss r = fspmd D O buf J ss' r.
Proof.
  intros H r. unfold fspmd. f_equal. generalize 0. induction H as [|s s' ss ss' (A & B & C) _ IH]; intros k; cbn; [reflexivity|].
  rewrite IH. f_equal. unfold rebuilt_stmt. rewrite A, B, (rebuilt_like _ _ C). reflexivity.
Qed.
