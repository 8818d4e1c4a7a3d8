(** Property C45: the Toeplitz solver. *)
From Coq Require Import ZArith QArith Qcanon List Lia Bool Arith.
From Verif Require Import Base Toep ToepProofs ToepFields.
Import ListNotations.
Local Open Scope nat_scope.
Local Open Scope cr_scope.

(** C45: when toepsol returns a vector, that vector solves T x = b for the
    Hermitian Toeplitz matrix T with first row t (T_ij = t_(j-i) for i <= j,
    its conjugate below the diagonal).  No assumption of positive
    definiteness; whatever y and x hold on entry. *)
Theorem C45_solves (F : StarField) (t b y x x' : list F) :
  nth 0 t 0 <> 0 -> fconj F (nth 0 t 0) = nth 0 t 0 -> (2 <= length t)%nat ->
  length b = length t -> length y = length t -> length x = length t ->
  toepsol t b y x = Some (solved x') ->
  length x' = length t /\ forall i, (i < length t)%nat -> sum (fun j => toeplitz t i j * nth j x' 0) (length t) = nth i b 0.
Proof.
  intros Hs Hr Hn Lb Ly Lx E. destruct (toepsol_ok t b Hr y x Hs Hn Lb Ly Lx) as (o & Eo & P).
  rewrite E in Eo. injection Eo as <-. exact P.
Qed.
(** It always returns or reports an error: no access outside a vector, no
    division by zero. *)
Theorem C45_total (F : StarField) (t b y x : list F) :
  nth 0 t 0 <> 0 -> fconj F (nth 0 t 0) = nth 0 t 0 -> (2 <= length t)%nat ->
  length b = length t -> length y = length t -> length x = length t ->
  exists o, toepsol t b y x = Some o.
Proof.
  intros Hs Hr Hn Lb Ly Lx. destruct (toepsol_ok t b Hr y x Hs Hn Lb Ly Lx) as (o & Eo & _). eauto.
Qed.
(** The error is honest: some leading block of T is singular. *)
Theorem C45_rank_error (F : StarField) (t b y x : list F) :
  nth 0 t 0 <> 0 -> fconj F (nth 0 t 0) = nth 0 t 0 -> (2 <= length t)%nat ->
  length b = length t -> length y = length t -> length x = length t ->
  toepsol t b y x = Some not_full_rank ->
  exists k v, (k < length t)%nat /\ v k = 1 /\ forall i, (i <= k)%nat -> sum (fun j => toeplitz t i j * v j) (S k) = 0.
Proof.
  intros Hs Hr Hn Lb Ly Lx E. destruct (toepsol_ok t b Hr y x Hs Hn Lb Ly Lx) as (o & Eo & P).
  rewrite E in Eo. injection Eo as <-. exact P.
Qed.
(** So a definite matrix is always solved: if v^H T v vanishes only for v = 0
    (as for a positive definite T), there is no error. *)
Theorem C45_definite (F : StarField) (t b y x : list F) :
  fconj F (nth 0 t 0) = nth 0 t 0 -> (2 <= length t)%nat ->
  length b = length t -> length y = length t -> length x = length t ->
  (forall v : nat -> F, sum (fun i => fconj F (v i) * sum (fun j => toeplitz t i j * v j) (length t)) (length t) = 0 -> forall i, (i < length t)%nat -> v i = 0) ->
  exists x', toepsol t b y x = Some (solved x').
Proof. exact (definite_solved t b y x). Qed.

(** The documented error for a matrix that is not positive definite is not
    raised: only a vanishing pivot is noticed. *)
Theorem C45_indefinite_refuted : exists (t b y x x' : list Qf) (v : nat -> Qf),
  toepsol t b y x = Some (solved x') /\
  Qclt (sum (fun i => v i * sum (fun j => toeplitz t i j * v j) (length t)) (length t)) (Q2Qc 0).
Proof.
  exists [Q2Qc 1; Q2Qc 2], [Q2Qc 3; Q2Qc 3], [Q2Qc 0; Q2Qc 0], [Q2Qc 0; Q2Qc 0]. eexists _, (fun i => if (i =? 0)%nat then Q2Qc 1 else Q2Qc (-1)).
  split; [reflexivity|vm_compute; reflexivity].
Qed.
(** A system of order one reads past its vector, whatever its values. *)
Theorem C45_order_one_refuted (F : StarField) (t0 b0 y0 x0 : F) : toepsol [t0] [b0] [y0] [x0] = None.
Proof. reflexivity. Qed.
(** A zero diagonal is divided by, not reported. *)
Theorem C45_zero_diagonal_refuted : exists t b y x : list Qf,
  length t = 2%nat /\ length b = length t /\ length y = length t /\ length x = length t /\ toepsol t b y x = None.
Proof. exists [Q2Qc 0; Q2Qc 1], [Q2Qc 1; Q2Qc 1], [Q2Qc 0; Q2Qc 0], [Q2Qc 0; Q2Qc 0]. repeat split. Qed.

(** A 3x3 complex Hermitian system: t = (4, 1+i, i). *)
Definition g (a b : Z) : Gf := (Q2Qc (inject_Z a), Q2Qc (inject_Z b)).
Example C45_ex_solves :
  match toepsol (F := Gf) [g 4 0; g 1 1; g 0 1] [g 5 2; g 6 0; g 4 (-1)] (repeat (g 0 0) 3) (repeat (g 0 0) 3) with
  | Some (solved x') => map (fun i => let z := sum (fun j => toeplitz (F := Gf) [g 4 0; g 1 1; g 0 1] i j * nth j x' (g 0 0)) 3 in (this (fst z), this (snd z))) (seq 0 3)
  | _ => []
  end = [(5 # 1, 2 # 1); (6 # 1, 0 # 1); (4 # 1, -1 # 1)]%Q.
Proof. vm_compute. reflexivity. Qed.
Example C45_ex_solves_real : fconj Gf (g 4 0) = g 4 0 /\ g 4 0 <> 0.
Proof. split; [|discriminate]. unfold g. cbn. f_equal. Qed.
(** A singular one: t = (1, 1). *)
Example C45_ex_rank_error : toepsol (F := Qf) [Q2Qc 1; Q2Qc 1] [Q2Qc 1; Q2Qc 2] (repeat (Q2Qc 0) 2) (repeat (Q2Qc 0) 2) = Some not_full_rank.
Proof. reflexivity. Qed.
(** The identity is definite over the rationals. *)
Example C45_ex_definite : forall v : nat -> Qf, sum (fun i => fconj Qf (v i) * sum (fun j => toeplitz (F := Qf) [Q2Qc 1; Q2Qc 0] i j * v j) 2) 2 = 0 -> forall i, (i < 2)%nat -> v i = 0.
Proof. exact identity_definite. Qed.

Print Assumptions C45_solves.
Print Assumptions C45_total.
Print Assumptions C45_rank_error.
Print Assumptions C45_definite.
Print Assumptions C45_indefinite_refuted.
Print Assumptions C45_order_one_refuted.
Print Assumptions C45_zero_diagonal_refuted.
