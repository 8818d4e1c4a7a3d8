(** Proofs about pointers with a run-time format. *)
From Coq Require Import ZArith List Bool Lia.
From Verif Require Import RtPtr.
Import ListNotations.
Local Open Scope Z_scope.

Definition inside (v : var) : rtp := match v with Mut p | Const p => p end.
Lemma convert_make n v c : inside v = make n -> inside (convert v c) = make n.
Proof. intros E. destruct c, v as [p|p]; cbn in *; subst p; destruct n; reflexivity. Qed.
Lemma converts_make n cs : forall v, inside v = make n -> inside (converts cs v) = make n.
Proof. induction cs as [|c cs IH]; intros v E; [exact E|]. apply IH. apply convert_make. exact E. Qed.
Lemma converts_fits n cs v f : inside v = make n -> fits f n ->
  exists p, as_ f (converts cs v) = Got p /\ kind p = f /\ same_elements p n.
Proof.
  intros E F. pose proof (converts_make n cs v E) as H. destruct (converts cs v) as [p|p]; cbn in H; subst p;
  destruct n as [a|a|r i]; cbn in F; try (destruct F as [-> | ->]); try subst f; cbn; eexists; (split; [reflexivity|]); (split; [reflexivity|]); intros k; split; reflexivity.
Qed.
Definition is_mut (v : var) : Prop := match v with Mut _ => True | Const _ => False end.
Lemma converts_refused n cs v f : inside v = make n -> is_mut (converts cs v) -> ~ fits f n -> as_ f (converts cs v) = Refused.
Proof.
  intros E M F. pose proof (converts_make n cs v E) as H. destruct (converts cs v) as [p|p]; [|destruct M]; cbn in H; subst p.
  destruct n as [a|a|r i], f; cbn in F |- *; try reflexivity; exfalso; apply F; auto.
Qed.
Lemma test_make n cs v : inside v = make n -> test (converts cs v) = true <-> ~ null n.
Proof.
  intros E. pose proof (converts_make n cs v E) as H.
  assert (T : test (converts cs v) = nonnull (make n)) by (destruct (converts cs v); cbn in *; subst; reflexivity).
  rewrite T. destruct n; unfold nonnull; cbn; rewrite negb_true_iff, Z.eqb_neq; reflexivity.
Qed.
Definition is_null_of (f : format) (p : rtp) : Prop := fmt p = f /\ word0 p = Some 0.
Lemma converts_null f cs : forall v, is_null_of f (inside v) -> is_null_of f (inside (converts cs v)).
Proof.
  induction cs as [|c cs IH]; intros v E; [exact E|]. apply IH. destruct E as [E1 E2].
  destruct c, v as [p|p]; cbn in *; try (split; assumption).
  - unfold to_const. rewrite E1. destruct f; split; cbn; auto.
  - unfold to_mut. rewrite E1. destruct f; split; cbn; auto.
Qed.
Lemma converts_null_test f cs v : is_null_of f (inside v) -> test (converts cs v) = false.
Proof.
  intros E. destruct (converts_null f cs v E) as [_ H]. destruct (converts cs v); cbn in *; unfold nonnull; rewrite H; reflexivity.
Qed.
Lemma aligned_ok s a p : 0 < a -> is_aligned_to s a p = true <-> (a | real_at p 0 * s) /\ (match p with Split _ _ => (a | imag_at p 0 * s) | _ => True end).
Proof.
  intros Ha. destruct p as [x|x|r i]; cbn -[Z.mul Z.add]; rewrite ?Z.mul_0_r, ?Z.add_0_r.
  - rewrite Z.eqb_eq, Z.mod_divide by lia. tauto.
  - rewrite Z.eqb_eq, Z.mod_divide by lia. tauto.
  - rewrite andb_true_iff, !Z.eqb_eq, !Z.mod_divide by lia. tauto.
Qed.
