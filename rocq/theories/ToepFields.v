(** Instances for the examples of C45, and the corollary for definite
    matrices. *)
From Coq Require Import ZArith QArith Qcanon List Lia Bool Arith Field.
From Verif Require Import Base Toep ToepProofs.
Import ListNotations.
Local Open Scope nat_scope.

(** The rationals, with the identity as conjugation. *)
Definition Qcring : CRing := {| car := Qc; r0 := 0%Qc; r1 := 1%Qc; radd := Qcplus; rmul := Qcmult; rsub := Qcminus; ropp := Qcopp; r_th := Qcrt |}.
Definition Qf : StarField.
Proof.
  refine {| fk := Qcring; finv := Qcinv; fconj := fun x => x; fre := fun x => x; feqb := fun x y => if Qc_eq_dec x y then true else false |}; cbn; try reflexivity; try tauto.
  - exact Qcmult_inv_r.
  - discriminate.
  - intros x y. destruct (Qc_eq_dec x y); split; congruence.
Defined.
(** The Gaussian rationals. *)
Local Open Scope Qc_scope.
Definition gmul (x y : Qc * Qc) : Qc * Qc := (fst x * fst y - snd x * snd y, fst x * snd y + snd x * fst y).
Definition Gring : CRing.
Proof.
  refine {| car := Qc * Qc; r0 := (0, 0); r1 := (1, 0); radd := fun x y => (fst x + fst y, snd x + snd y); rmul := gmul;
    rsub := fun x y => (fst x - fst y, snd x - snd y); ropp := fun x => (- fst x, - snd x) |}.
  constructor; unfold gmul; intros; repeat match goal with z : (Qc * Qc)%type |- _ => destruct z end; cbn [fst snd]; f_equal; ring.
Defined.
Lemma sq_nonneg (a : Qc) : 0 <= a * a.
Proof.
  destruct (Qclt_le_dec a 0) as [H|H].
  - replace (a * a) with ((- a) * (- a)) by ring. replace 0 with (0 * (- a)) by ring. apply Qcmult_le_compat_r; apply Qclt_le_weak; apply Qclt_minus_iff in H; rewrite Qcplus_0_l in H; exact H.
  - replace 0 with (0 * a) by ring. apply Qcmult_le_compat_r; exact H.
Qed.
Lemma sq_sum_0 (a b : Qc) : a * a + b * b = 0 -> a = 0 /\ b = 0.
Proof.
  intros E. pose proof (sq_nonneg a) as Ha. pose proof (sq_nonneg b) as Hb.
  assert (Ea : a * a = 0).
  { apply Qcle_antisym; [|exact Ha]. rewrite <- E. replace (a * a) with (a * a + 0) at 1 by ring. apply Qcplus_le_compat; [apply Qcle_refl|exact Hb]. }
  assert (Eb : b * b = 0) by (rewrite Ea in E; rewrite <- E; ring).
  split; [destruct (Qcmult_integral _ _ Ea)|destruct (Qcmult_integral _ _ Eb)]; assumption.
Qed.
Definition ginv (x : Qc * Qc) : Qc * Qc := let d := fst x * fst x + snd x * snd x in (fst x / d, - snd x / d).
Definition geqb (x y : Qc * Qc) : bool := if Qc_eq_dec (fst x) (fst y) then if Qc_eq_dec (snd x) (snd y) then true else false else false.
Definition Gf : StarField.
Proof.
  refine {| fk := Gring; finv := ginv; fconj := fun x => (fst x, - snd x); fre := fun x => (fst x, 0); feqb := geqb |}.
  - intros [a b] H. cbn. unfold gmul, ginv. cbn [fst snd].
    assert (N : a * a + b * b <> 0) by (intros E; apply H; destruct (sq_sum_0 a b E) as [-> ->]; reflexivity).
    f_equal; field; exact N.
  - discriminate.
  - intros [a b] [c d]. cbn. f_equal. ring.
  - intros [a b] [c d]. cbn. unfold gmul. cbn. f_equal; ring.
  - cbn. f_equal.
  - intros [a b]. cbn. f_equal. ring.
  - intros [a b] E. cbn in *. injection E as E. f_equal. 
    assert (E2 : b + b = 0) by (rewrite <- E at 1; ring). assert (E3 : (1 + 1) * b = 0) by (rewrite <- E2; ring).
    destruct (Qcmult_integral _ _ E3) as [X|X]; [discriminate X|symmetry; exact X].
  - intros [a b] [c d]. unfold geqb. cbn [fst snd]. destruct (Qc_eq_dec a c), (Qc_eq_dec b d); split; congruence.
Defined.
Local Close Scope Qc_scope.
Local Open Scope cr_scope.

Lemma identity_definite : forall v : nat -> Qf, sum (fun i => fconj Qf (v i) * sum (fun j => toeplitz (F := Qf) [Q2Qc 1; Q2Qc 0] i j * v j) 2) 2 = 0 -> forall i, (i < 2)%nat -> v i = 0.
Proof.
  intros v E. cbn in E. destruct (sq_sum_0 (v 0%nat) (v 1%nat)) as [E0 E1].
  { rewrite <- E. replace (Q2Qc 1) with 1%Qc by reflexivity. replace (Q2Qc 0) with 0%Qc by reflexivity. ring. }
  intros i Hi. destruct i as [|[|i]]; [exact E0|exact E1|lia].
Qed.

Section Definite.
Context {F : StarField}.
Add Ring Kring : (r_th F).
Lemma sum_cut (f : nat -> F) k n : (k <= n)%nat -> (forall i, (k <= i)%nat -> f i = 0) -> sum f n = sum f k.
Proof.
  intros H Z. induction n as [|n IH]; [f_equal; lia|]. destruct (Nat.eq_dec k (S n)) as [->|N]; [reflexivity|]. cbn [sum]. rewrite IH by lia. rewrite Z by lia. ring.
Qed.
Lemma definite_solved (t b y x : list F) :
  fconj F (nth 0 t 0) = nth 0 t 0 -> (2 <= length t)%nat ->
  length b = length t -> length y = length t -> length x = length t ->
  (forall v : nat -> F, sum (fun i => fconj F (v i) * sum (fun j => toeplitz t i j * v j) (length t)) (length t) = 0 -> forall i, (i < length t)%nat -> v i = 0) ->
  exists x', toepsol t b y x = Some (solved x').
Proof.
  intros Hr Hn Lb Ly Lx D.
  assert (Hs : nth 0 t 0 <> 0).
  { intros E. apply (f01 F). refine (D (fun i => if (i =? 0)%nat then 1 else 0) _ 0%nat ltac:(lia)).
    rewrite (sum_cut _ 1 (length t)); [|lia|intros i Hi; destruct (Nat.eqb_spec i 0); [lia|]; rewrite conj_0; ring].
    cbn [sum]. rewrite (sum_cut _ 1 (length t)); [|lia|intros i Hi; destruct (Nat.eqb_spec i 0); [lia|]; ring].
    cbn [sum]. unfold toeplitz. cbn. rewrite E. ring. }
  destruct (toepsol_ok t b Hr y x Hs Hn Lb Ly Lx) as ([x'|] & E & P); [eauto|].
  destruct P as (k & v & Hk & V1 & Z). exfalso. apply (f01 F). rewrite <- V1.
  set (w := fun i => if (i <=? k)%nat then v i else 0).
  transitivity (w k); [unfold w; rewrite Nat.leb_refl; reflexivity|]. apply D; [|exact Hk].
  rewrite (sum_cut _ (S k)); [|lia|intros i Hi; unfold w at 1; destruct (Nat.leb_spec i k); [lia|]; rewrite conj_0; ring].
  apply sum_0. intros i Hi. rewrite (sum_cut _ (S k)); [|lia|intros j Hj; unfold w; destruct (Nat.leb_spec j k); [lia|]; ring].
  rewrite (sum_ext _ _ (fun j => toeplitz t i j * v j)) by (intros j Hj; unfold w; destruct (Nat.leb_spec j k); [reflexivity|lia]).
  rewrite Z by lia. ring.
Qed.
End Definite.
