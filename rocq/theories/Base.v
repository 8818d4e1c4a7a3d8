(** Shared vocabulary of the model: machine words, the outcome monad
    (undefined behaviour is [None]), counted loops, bounds-checked
    blocks, partial memories, exact-arithmetic rings and finite sums. *)
From Coq Require Import ZArith List Lia Bool Arith.
From Coq Require Import ZifyBool ZifyNat.
From Coq Require Import Ring_theory Field_theory Ring.
Import ListNotations.

Ltac Zify.zify_post_hook ::= Z.div_mod_to_equations.

(** ** Machine words (vsip/support.hpp 82-92: index_type, length_type =
    std::size_t, stride_type = std::ptrdiff_t; 64-bit target). *)
Definition W64 : Z := 18446744073709551616%Z.          (* 2^64 *)
Definition H64 : Z := 9223372036854775808%Z.           (* 2^63 *)
Definition u64 (z : Z) : Z := (z mod W64)%Z.
Definition s64 (z : Z) : Z :=
  let r := (z mod W64)%Z in if (r <? H64)%Z then r else (r - W64)%Z.

(** ** Outcomes: [None] is undefined behaviour / a violated
    precondition (OVXX_PRECONDITION aborts). *)
Definition bind {A B} (m : option A) (f : A -> option B) : option B :=
  match m with Some a => f a | None => None end.
Notation "x <- e ;; k" := (bind e (fun x => k))
  (at level 61, e at next level, right associativity).
Notation "'assert' b ;; k" := (if b then k else None)
  (at level 61, b at next level, right associativity).

(** ** Counted loops.  [loop f i n s] runs [f i], [f (i+1)], ...,
    [f (i+n-1)]: the C++ loop [for (j=i; j<i+n; ++j) s = f(j,s)]. *)
Fixpoint loop {S} (f : nat -> S -> option S) (i n : nat) (s : S) : option S :=
  match n with
  | 0 => Some s
  | S n' => s' <- f i s ;; loop f (i + 1) n' s'
  end.

(** ** Blocks seen through get/put: a finite list of element values
    (size() = length), every access bounds-checked. *)
Definition bget {V} (b : list V) (i : nat) : option V := nth_error b i.
Fixpoint lset {V} (b : list V) (i : nat) (v : V) : list V :=
  match b, i with
  | [], _ => []
  | _ :: r, 0 => v :: r
  | x :: r, S i' => x :: lset r i' v
  end.
Definition bput {V} (b : list V) (i : nat) (v : V) : option (list V) :=
  if i <? length b then Some (lset b i v) else None.

(** ** Raw memory: a partial map from element addresses to values;
    loads and stores at unmapped addresses are undefined behaviour. *)
Definition mem (V : Type) := Z -> option V.
Definition mload {V} (m : mem V) (a : Z) : option V := m a.
Definition mupd {V} (m : mem V) (a : Z) (v : V) : mem V :=
  fun x => if (x =? a)%Z then Some v else m x.
Definition mstore {V} (m : mem V) (a : Z) (v : V) : option (mem V) :=
  match m a with Some _ => Some (mupd m a v) | None => None end.
(** The memory that holds the list [l] at addresses 0,1,2,... *)
Definition mem_of {V} (l : list V) : mem V :=
  fun a => if (a <? 0)%Z then None else nth_error l (Z.to_nat a).

(** ** Exact arithmetic: an arbitrary commutative ring. *)
Record CRing := {
  car :> Type;
  r0 : car; r1 : car;
  radd : car -> car -> car;
  rmul : car -> car -> car;
  rsub : car -> car -> car;
  ropp : car -> car;
  r_th : ring_theory r0 r1 radd rmul rsub ropp (@eq car) }.
Arguments r0 {_}. Arguments r1 {_}. Arguments radd {_} _ _.
Arguments rmul {_} _ _. Arguments rsub {_} _ _. Arguments ropp {_} _.

Declare Scope cr_scope.
Delimit Scope cr_scope with cr.
Notation "a + b" := (radd a b) : cr_scope.
Notation "a * b" := (rmul a b) : cr_scope.
Notation "a - b" := (rsub a b) : cr_scope.
Notation "- a" := (ropp a) : cr_scope.
Notation "0" := r0 : cr_scope.
Notation "1" := r1 : cr_scope.

Definition Zring : CRing :=
  {| car := Z; r0 := 0%Z; r1 := 1%Z; radd := Z.add; rmul := Z.mul;
     rsub := Z.sub; ropp := Z.opp; r_th := InitialRing.Zth |}.

(** Finite sums, used only in specifications: [sum f n] = f 0 + ... + f (n-1). *)
Fixpoint sum {A : CRing} (f : nat -> A) (n : nat) : A :=
  match n with 0 => r0 | S n' => radd (sum f n') (f n') end.

(** * Lemmas *)

Lemma bind_some {A B} (m : option A) (f : A -> option B) b :
  bind m f = Some b -> exists a, m = Some a /\ f a = Some b.
Proof. destruct m; simpl; [eauto | discriminate]. Qed.

Lemma loop_inv {S} (f : nat -> S -> option S) (P : nat -> S -> Prop) n :
  forall i s, P i s ->
  (forall j t, i <= j < i + n -> P j t -> exists t', f j t = Some t' /\ P (j + 1) t') ->
  exists s', loop f i n s = Some s' /\ P (i + n) s'.
Proof.
  induction n as [|n IH]; intros i s H0 Hs; simpl.
  - exists s. rewrite Nat.add_0_r. auto.
  - destruct (Hs i s ltac:(lia) H0) as (t & Ht & Pt). rewrite Ht; simpl.
    destruct (IH (i + 1) t Pt) as (s' & E & Q).
    + intros j u Hj Pu. apply Hs; [lia | exact Pu].
    + exists s'. split; [exact E|]. replace (i + Datatypes.S n) with (i + 1 + n) by lia. exact Q.
Qed.

(** Loops that cannot fail. *)
Lemma loop_total {S} (f : nat -> S -> S) n : forall i s,
  loop (fun j t => Some (f j t)) i n s = Some (fold_left (fun t j => f j t) (seq i n) s).
Proof.
  induction n as [|n IH]; intros i s; simpl; [reflexivity|].
  rewrite IH. replace (i + 1) with (Datatypes.S i) by lia. reflexivity.
Qed.

Lemma loop_app {S} (f : nat -> S -> option S) n : forall m i s,
  loop f i (n + m) s = (t <- loop f i n s ;; loop f (i + n) m t).
Proof.
  induction n as [|n IH]; intros m i s; simpl.
  - rewrite Nat.add_0_r. reflexivity.
  - destruct (f i s) as [t|]; simpl; [|reflexivity].
    rewrite IH. replace (i + 1 + n) with (i + Datatypes.S n) by lia. reflexivity.
Qed.

Lemma loop_ext {S} (f g : nat -> S -> option S) n : forall i s,
  (forall j t, i <= j < i + n -> f j t = g j t) -> loop f i n s = loop g i n s.
Proof.
  induction n as [|n IH]; intros i s H; simpl; [reflexivity|].
  rewrite (H i s) by lia. destruct (g i s); simpl; [|reflexivity].
  apply IH. intros; apply H; lia.
Qed.

Lemma lset_length {V} (b : list V) i v : length (lset b i v) = length b.
Proof. revert i; induction b as [|x b IH]; intros [|i]; simpl; auto. Qed.

Lemma lset_nth {V} (b : list V) : forall i v j,
  nth_error (lset b i v) j =
  if (j =? i) then (if i <? length b then Some v else None) else nth_error b j.
Proof.
  induction b as [|x b IH]; intros i v j; simpl.
  - destruct i, j; simpl; auto. destruct (j =? i); reflexivity.
  - destruct i as [|i], j as [|j]; simpl; auto.
    rewrite IH. replace (S i <? S (length b)) with (i <? length b)
      by (destruct (Nat.ltb_spec i (length b)), (Nat.ltb_spec (S i) (S (length b))); lia || reflexivity).
    reflexivity.
Qed.

Lemma bput_some {V} (b : list V) i v : i < length b -> bput b i v = Some (lset b i v).
Proof. intros H; unfold bput. destruct (Nat.ltb_spec i (length b)); [reflexivity|lia]. Qed.

Lemma bget_lt {V} (b : list V) i : i < length b -> exists v, bget b i = Some v.
Proof. unfold bget; intros H. destruct (nth_error b i) eqn:E; [eauto|].
  apply nth_error_None in E; lia. Qed.

Lemma nth_error_ext {V} : forall (a b : list V),
  (forall i, nth_error a i = nth_error b i) -> a = b.
Proof.
  induction a as [|x a IH]; intros [|y b] H; auto.
  - specialize (H 0); discriminate.
  - specialize (H 0); discriminate.
  - f_equal. + specialize (H 0); simpl in H; congruence.
    + apply IH; intros i; exact (H (S i)).
Qed.

Lemma nth_error_seq i a n : nth_error (seq a n) i = if i <? n then Some (a + i) else None.
Proof.
  revert i a; induction n as [|n IH]; intros [|i] a; simpl; auto.
  rewrite IH. change (S i <? S n) with (i <? n).
    destruct (i <? n); [f_equal; lia | reflexivity].
Qed.

Lemma nth_error_map_seq {V} (f : nat -> V) a n i :
  nth_error (map f (seq a n)) i = if i <? n then Some (f (a + i)) else None.
Proof.
  rewrite nth_error_map, nth_error_seq. destruct (i <? n); reflexivity.
Qed.

Section Sums.
  Variable A : CRing.
  Add Ring Aring : (r_th A).
  Open Scope cr_scope.

  Lemma sum_ext (f g : nat -> A) n :
    (forall i, (i < n)%nat -> f i = g i) -> sum f n = sum g n.
  Proof.
    induction n as [|n IH]; intros H; simpl; [reflexivity|].
    rewrite IH by (intros; apply H; lia). rewrite H by lia. reflexivity.
  Qed.

  Lemma sum_0 (f : nat -> A) n : (forall i, (i < n)%nat -> f i = 0) -> sum f n = 0.
  Proof.
    induction n as [|n IH]; intros H; simpl; [reflexivity|].
    rewrite IH by (intros; apply H; lia). rewrite H by lia. ring.
  Qed.

  Lemma sum_app (f : nat -> A) n m :
    sum f (n + m) = sum f n + sum (fun i => f (n + i)%nat) m.
  Proof.
    induction m as [|m IH]; simpl.
    - rewrite Nat.add_0_r. ring.
    - rewrite Nat.add_succ_r. simpl. rewrite IH. ring.
  Qed.

  Lemma sum_first (f : nat -> A) n : sum f (S n) = f 0%nat + sum (fun i => f (S i)) n.
  Proof. change (S n) with (1 + n)%nat. rewrite sum_app. simpl. ring. Qed.

  Lemma sum_rev (f : nat -> A) n : sum f n = sum (fun i => f (n - 1 - i)%nat) n.
  Proof.
    induction n as [|n IH]; [reflexivity|].
    rewrite (sum_first (fun i => f (S n - 1 - i)%nat)). simpl sum at 1.
    replace (S n - 1 - 0)%nat with n by lia. rewrite IH.
    rewrite (sum_ext (fun i => f (S n - 1 - S i)%nat) (fun i => f (n - 1 - i)%nat))
      by (intros; f_equal; lia). ring.
  Qed.

  Lemma sum_add (f g : nat -> A) n : sum (fun i => f i + g i) n = sum f n + sum g n.
  Proof. induction n as [|n IH]; simpl; [ring|]. rewrite IH. ring. Qed.

  Lemma sum_mul_l (c : A) (f : nat -> A) n : sum (fun i => c * f i) n = c * sum f n.
  Proof. induction n as [|n IH]; simpl; [ring|]. rewrite IH. ring. Qed.

  Lemma sum_swap (f : nat -> nat -> A) n m :
    sum (fun i => sum (fun j => f i j) m) n = sum (fun j => sum (fun i => f i j) n) m.
  Proof.
    induction n as [|n IH]; simpl.
    - symmetry; apply sum_0; reflexivity.
    - rewrite IH, <- sum_add. reflexivity.
  Qed.

  (** Accumulation loop [acc += f(j)]. *)
  Lemma fold_sum (f : nat -> A) n : forall i s,
    fold_left (fun t j => t + f j) (seq i n) s = s + sum (fun k => f (i + k)%nat) n.
  Proof.
    induction n as [|n IH]; intros i s; cbn [seq fold_left].
    - simpl. ring.
    - rewrite IH, sum_first. rewrite Nat.add_0_r.
      rewrite (sum_ext (fun k => f (S i + k)%nat) (fun k => f (i + S k)%nat))
        by (intros; f_equal; lia). ring.
  Qed.
End Sums.

Lemma mem_of_some {V} (l : list V) a : (0 <= a < Z.of_nat (length l))%Z ->
  exists v, mem_of l a = Some v.
Proof.
  intros H. unfold mem_of. destruct (Z.ltb_spec a 0); [lia|].
  apply bget_lt; lia.
Qed.
