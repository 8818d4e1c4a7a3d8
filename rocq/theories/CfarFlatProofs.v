(** Lemmas about the CFAR kernel that works on pointers. *)
From Coq Require Import ZArith List Bool Arith Lia.
From Verif Require Import Base Cfar CfarFlat.
Import ListNotations.
Local Open Scope nat_scope.

Section CfarFlat.
Context {R : CRing}.
Variable hit : R -> R -> nat -> bool.
Variable mem : nat -> R.
Variables beams dbins gates c g columns : nat.

Lemma loop_same {S} (f f' : nat -> S -> option S) : (forall i s, f i s = f' i s) -> forall n i s, loop f i n s = loop f' i n s.
Proof. intros H. induction n as [|n IH]; intros i s; cbn [loop]; [reflexivity|]. rewrite H. destruct (f' i s); cbn [bind]; [apply IH | reflexivity]. Qed.
Section Ext.
Variables (p p' : nat -> option R).
Hypothesis H : forall k, p k = p' k.
Ltac go := repeat (rewrite H; destruct (p' _); cbn [bind]; [|reflexivity]).
Lemma test1_same ij k u s : test1 hit gates columns p ij k u s = test1 hit gates columns p' ij k u s.
Proof. unfold test1. rewrite H. reflexivity. Qed.
Lemma first1_same ij k s : first1 hit gates c g columns p ij k s = first1 hit gates c g columns p' ij k s.
Proof.
  unfold first1. destruct (k =? 0); [|destruct (k <? g + 1)].
  - rewrite (loop_same _ (fun lnd sum => x <- p' (1 + lnd) ;; Some (radd sum x))) by (intros; rewrite H; reflexivity).
    destruct (loop _ g c (fst s)); cbn [bind]; [apply test1_same | reflexivity].
  - go. apply test1_same.
  - go. apply test1_same.
Qed.
Lemma middle1_same ij k s : middle1 hit gates c g columns p ij k s = middle1 hit gates c g columns p' ij k s.
Proof. unfold middle1. go. apply test1_same. Qed.
Lemma last1_same ij k s : last1 hit gates c g columns p ij k s = last1 hit gates c g columns p' ij k s.
Proof. unfold last1. destruct (k + g <? gates); go; apply test1_same. Qed.
End Ext.

Lemma squares_ok off : off + gates <= beams * dbins * gates -> forall buf,
  exists buf', squares mem beams dbins gates off buf = Some buf' /\ forall k, k < gates -> buf' k = rmul (mem (off + k)) (mem (off + k)).
Proof.
  intros Ho buf. unfold squares.
  assert (G : forall m i b, i + m = gates -> (forall k, k < i -> b k = rmul (mem (off + k)) (mem (off + k))) ->
    exists b', loop (fun aa buf => x <- read mem beams dbins gates off aa ;; Some (fun k => if k =? aa then rmul x x else buf k)) i m b = Some b' /\
      forall k, k < gates -> b' k = rmul (mem (off + k)) (mem (off + k))).
  { induction m as [|m IH]; intros i b Hi Hb; cbn [loop]; [exists b; split; [reflexivity|]; intros k Hk; apply Hb; lia|].
    unfold read at 1. rewrite (proj2 (Nat.ltb_lt _ _)) by lia. cbn [bind]. apply IH; [lia|]. intros k Hk. destruct (Nat.eqb_spec k i) as [-> | N]; [reflexivity | apply Hb; lia]. }
  apply (G gates 0 buf); [reflexivity | lia].
Qed.

Notation cb := (fun i j k => mem ((i * dbins + j) * gates + k)).
Lemma vectorc_ok i j buf F : i < beams -> j < dbins ->
  match vector1 hit cb beams dbins gates c g columns i j F with
  | Some F' => exists buf', vectorc hit mem beams dbins gates c g columns i j ((i * dbins + j) * gates, buf, F) = Some ((i * dbins + j) * gates + gates, buf', F')
  | None => vectorc hit mem beams dbins gates c g columns i j ((i * dbins + j) * gates, buf, F) = None
  end.
Proof.
  intros Hi Hj. destruct (squares_ok ((i * dbins + j) * gates)) with (buf := buf) as (b & E & Hb).
  { assert (i * dbins + j + 1 <= beams * dbins) by nia. nia. }
  unfold vectorc. rewrite E. cbn [bind]. unfold vector1.
  set (p := fun k => option_map square (cell cb beams dbins gates i j k)).
  assert (H : forall k, power gates b k = p k).
  { intros k. unfold power, p, cell. rewrite (proj2 (Nat.ltb_lt i beams) Hi), (proj2 (Nat.ltb_lt j dbins) Hj). cbn [andb].
    destruct (Nat.ltb_spec k gates) as [Hk|Hk]; [|reflexivity]. cbn [bind option_map]. rewrite Hb by exact Hk. reflexivity. }
  rewrite (loop_same _ _ (first1_same _ p H (i, j))). destruct (loop (first1 _ _ _ _ _ p (i, j)) _ _ _) as [s1|]; cbn [bind]; [|reflexivity].
  rewrite (loop_same _ _ (middle1_same _ p H (i, j))). destruct (loop (middle1 _ _ _ _ _ p (i, j)) _ _ _) as [s2|]; cbn [bind]; [|reflexivity].
  rewrite (loop_same _ _ (last1_same _ p H (i, j))). destruct (loop (last1 _ _ _ _ _ p (i, j)) _ _ _) as [s3|]; cbn [bind]; [|reflexivity].
  exists b. reflexivity.
Qed.
Lemma row_ok i : i < beams -> forall m j buf F, j + m = dbins ->
  match loop (fun j F => vector1 hit cb beams dbins gates c g columns i j F) j m F with
  | Some F' => exists buf', loop (fun j st => vectorc hit mem beams dbins gates c g columns i j st) j m ((i * dbins + j) * gates, buf, F) = Some ((i + 1) * dbins * gates, buf', F')
  | None => loop (fun j st => vectorc hit mem beams dbins gates c g columns i j st) j m ((i * dbins + j) * gates, buf, F) = None
  end.
Proof.
  intros Hi. induction m as [|m IH]; intros j buf F Hj; cbn [loop].
  - exists buf. do 3 f_equal. nia.
  - pose proof (vectorc_ok i j buf F Hi ltac:(lia)) as V. destruct (vector1 _ _ _ _ _ _ _ _ i j F) as [F1|]; [|rewrite V; reflexivity].
    destruct V as (b & V). rewrite V. cbn [bind]. replace ((i * dbins + j) * gates + gates) with ((i * dbins + (j + 1)) * gates) by nia. apply IH. lia.
Qed.
Lemma by_pointer_ok buf : by_pointer hit mem beams dbins gates c g columns buf = by_vector hit cb beams dbins gates c g columns.
Proof.
  unfold by_pointer, by_vector.
  assert (G : forall m i b F, i + m = beams ->
    match loop (fun i F => loop (fun j F => vector1 hit cb beams dbins gates c g columns i j F) 0 dbins F) i m F with
    | Some F' => exists b' o, loop (fun i st => loop (fun j st => vectorc hit mem beams dbins gates c g columns i j st) 0 dbins st) i m (i * dbins * gates, b, F) = Some (o, b', F')
    | None => loop (fun i st => loop (fun j st => vectorc hit mem beams dbins gates c g columns i j st) 0 dbins st) i m (i * dbins * gates, b, F) = None
    end).
  { induction m as [|m IH]; intros i b F Hi; cbn [loop]; [exists b; eexists; reflexivity|].
    pose proof (row_ok i ltac:(lia) dbins 0 b F eq_refl) as V. rewrite Nat.add_0_r in V. destruct (loop _ 0 dbins F) as [F1|]; [|rewrite V; reflexivity].
    destruct V as (b1 & V). rewrite V. cbn [bind]. apply IH. lia. }
  specialize (G beams 0 buf (fun _ => []) eq_refl). cbn [Nat.mul] in G. match type of G with match ?e with _ => _ end => destruct e as [F|] end; [destruct G as (b & o & G)|];
    match goal with |- bind ?e _ = _ => match type of G with ?e' = _ => change e with e' end end; rewrite G; reflexivity.
Qed.
End CfarFlat.
Lemma cell_same {R : CRing} (mem : nat -> R) beams dbins gates i j k :
  option_map square (cell (fun i j k => mem ((i * dbins + j) * gates + k)) beams dbins gates i j k) =
  option_map square (cell (fun i j k => mem (i * (dbins * gates) + j * gates + k)) beams dbins gates i j k).
Proof. unfold cell. do 3 f_equal. replace (i * (dbins * gates) + j * gates) with ((i * dbins + j) * gates) by nia. reflexivity. Qed.
