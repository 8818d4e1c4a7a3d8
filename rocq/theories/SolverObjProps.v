(** C93: solver objects can be reused, copied and destroyed independently. *)
From Coq Require Import ZArith List Lia Bool Arith.
From Verif Require Import Base Freqswap Conv Matvec Solver SolverProps SolverObj SolverObjProofs.
Import ListNotations.
Local Open Scope nat_scope.

Section P.
Context {K : CRing} (conj : K -> K) (kdiv : K -> K -> option K).
Context (geqrf : nat -> nat -> list K -> nat -> option (list K * list K)).
Context (getrf : nat -> list K -> nat -> option (list K * list nat * bool)).
Context (potrf : bool -> nat -> list K -> nat -> option (list K * bool)).
Local Notation step := (step conj kdiv geqrf getrf potrf).
Local Notation reachable := (reachable conj kdiv geqrf getrf potrf).
Local Notation given := (given conj kdiv geqrf getrf potrf).

(** A lud object last given the regular matrix A, directly or by being copied
    from an object that had been given A, solves op(A) X = B, whatever was done
    to other objects (the original among them) and to the user's matrices
    since. *)
Theorem C93_lud (st : state) v n (A : nat -> nat -> K) cplx tr (b x : block2) (B : nat -> nat -> K) :
  conj_ok conj -> div_ok kdiv -> given st v Lud n n A -> 1 <= n -> getrf_for getrf n A -> full_column_rank n n A ->
  tr <> mat_conj -> (tr = mat_herm -> cplx = true) ->
  rows b = n -> rows x = n -> cols x = cols b -> holds2 (smem st) b B -> wf2 (smem st) x ->
  exists st' X, step st (LudSolve v cplx tr b x) = Some st' /\ only2 x (smem st) (smem st') /\ holds2 (smem st') x X /\
    forall i j, i < n -> j < cols b -> sum (fun k => op_elem conj tr A i k * X k j)%cr n = B i j.
Proof. exact (lud_ok conj kdiv geqrf getrf potrf st v n A cplx tr b x B). Qed.

(** The same for chold and a regular Hermitian A. *)
Theorem C93_chold (st : state) v u n (A : nat -> nat -> K) (b x : block2) (B : nat -> nat -> K) :
  conj_ok conj -> div_ok kdiv -> given st v (Chold u) n n A -> 1 <= n ->
  (forall i j, i < n -> j < n -> A i j = conj (A j i)) -> potrf_for conj potrf u n A -> full_column_rank n n A ->
  rows b = n -> rows x = n -> cols x = cols b -> holds2 (smem st) b B -> wf2 (smem st) x ->
  exists st' X, step st (CholdSolve v b x) = Some st' /\ only2 x (smem st) (smem st') /\ holds2 (smem st') x X /\
    forall i j, i < n -> j < cols b -> sum (fun k => A i k * X k j)%cr n = B i j.
Proof. exact (chold_ok conj kdiv geqrf getrf potrf st v u n A b x B). Qed.

(** The same for the least squares problems and the covariance systems of qrd. *)
Theorem C93_qrd_lsqsol (st : state) v M N (A : nat -> nat -> K) cplx (b x : block2) (B : nat -> nat -> K) :
  conj_ok conj -> div_ok kdiv -> given st v Qrd M N A -> 1 <= N <= M -> geqrf_for conj geqrf M N A -> full_column_rank M N A ->
  rows b = M -> rows x = N -> cols x = cols b -> holds2 (smem st) b B -> wf2 (smem st) x ->
  exists st' X, step st (QrdLsqsol v cplx b x) = Some st' /\ only2 x (smem st) (smem st') /\ holds2 (smem st') x X /\
    forall i j, i < N -> j < cols b -> mmul M (adj conj A) (mmul N A X) i j = mmul M (adj conj A) B i j.
Proof. exact (qrd_ok conj kdiv geqrf getrf potrf st v M N A cplx b x B). Qed.
Theorem C93_qrd_covsol (st : state) v M N (A : nat -> nat -> K) cplx (b x : block2) (B : nat -> nat -> K) :
  conj_ok conj -> div_ok kdiv -> (cplx = false -> forall u, conj u = u) ->
  given st v Qrd M N A -> 1 <= N <= M -> geqrf_for conj geqrf M N A -> full_column_rank M N A ->
  rows b = N -> rows x = N -> cols x = cols b -> holds2 (smem st) b B -> wf2 (smem st) x ->
  exists st' X, step st (QrdCovsol v cplx b x) = Some st' /\ only2 x (smem st) (smem st') /\ holds2 (smem st') x X /\
    forall i j, i < N -> j < cols b -> mmul N (mmul M (adj conj A) A) X i j = B i j.
Proof. exact (qrd_cov_ok conj kdiv geqrf getrf potrf st v M N A cplx b x B). Qed.

(** An object that was given a matrix can be given another of the same size,
    and then counts as given that one. *)
Theorem C93_again (st : state) v c M N (A A' : nat -> nat -> K) (a : block2) :
  given st v c M N A -> rows a = M -> cols a = N -> holds2 (smem st) a A' ->
  match c with Lud => getrf_for getrf M A' | Chold u => potrf_for conj potrf u M A' | Qrd => geqrf_for conj geqrf M N A' end ->
  exists st', step st (Decompose v a) = Some st' /\ given st' v c M N A'.
Proof. exact (again_ok conj kdiv geqrf getrf potrf st v c M N A a A'). Qed.

(** An existing object can be copied under a new name and can be destroyed,
    which frees its arrays; when no objects are left, nothing is. *)
Theorem C93_copy (st : state) v w o :
  reachable st -> vars st w = Some o -> vars st v = None -> exists st', step st (Copy v w) = Some st'.
Proof. exact (copy_ok conj kdiv geqrf getrf potrf st v w o). Qed.
Theorem C93_destroy (st : state) v o :
  reachable st -> vars st v = Some o ->
  exists st', step st (Destroy v) = Some st' /\ heap st' (dat o) = None /\ heap st' (aux o) = None.
Proof. exact (destroy_ok conj kdiv geqrf getrf potrf st v o). Qed.
Theorem C93_no_leak (st : state) :
  reachable st -> (forall v, vars st v = None) -> forall i, heap st i = None.
Proof. exact (no_leak conj kdiv geqrf getrf potrf st). Qed.
End P.

(** ** Concrete cases *)
Local Open Scope Z_scope.
(** [[0,1],[1,3]] at 0, [[1,2],[2,5]] at 4, (7,11) at 8, x at 10; and a getrf
    that factors the first matrix and fails for others. *)
Definition om : mem Zring := mem_of (V := Zring) [0; 1; 1; 3; 1; 2; 2; 5; 7; 11; 100; 100].
Definition olu : nat -> list Zring -> nat -> option (list Zring * list nat * bool) :=
  fun _ d _ => Some (if nth 0 d 0 =? 0 then ([1; 0; 3; 1], [1%nat; 1%nat], true) else ([7; 7; 7; 7], [0%nat; 0%nat], false)).
Definition ostep := step (K := Zring) idz zdiv zq olu zch.
Definition orun (ops : list op) : state := fold_left (fun st o => match ostep st o with Some st' => st' | None => st end) ops (start om).
(** Decomposed, copied; the original decomposed anew and destroyed; the matrix
    overwritten. *)
Definition o1 : list (@op Zring) := [NewLud 0 2].
Definition o2 := o1 ++ [Decompose 0 (zm 2 2 0)].
Definition o3 := o2 ++ [Copy 1 0].
Definition o4 := o3 ++ [Decompose 0 (zm 2 2 4)].
Definition o5 := o4 ++ [Destroy 0].
Definition o6 := o5 ++ [User (mem_of (V := Zring) [9; 9; 9; 9; 1; 2; 2; 5; 7; 11; 100; 100])].
Example C93_ex_lu : getrf_for (K := Zring) olu 2 zL.
Proof.
  intros d [_ S]. pose proof (S 0%nat 0%nat ltac:(lia) ltac:(lia)) as H. cbn in H. exists [1; 0; 3; 1], [1%nat; 1%nat], true. split; [unfold olu; unfold elt in H; cbn in H; destruct d as [|z d]; [reflexivity|]; cbn in H |- *; rewrite H; reflexivity|].
  split; [reflexivity|]. split; [reflexivity|]. split; [intros i Hi; smallz; cbn; lia|]. intros i j Hi Hj; smallz; vm_compute; reflexivity.
Qed.
Example C93_ex_given : given (K := Zring) idz zdiv zq olu zch (orun o6) 1 Lud 2 2 zL.
Proof.
  apply (given_keep _ _ _ _ _ (orun o5) _ _ (User (mem_of (V := Zring) [9; 9; 9; 9; 1; 2; 2; 5; 7; 11; 100; 100]))); [|reflexivity|discriminate].
  apply (given_keep _ _ _ _ _ (orun o4) _ _ (Destroy 0)); [|reflexivity|discriminate].
  apply (given_keep _ _ _ _ _ (orun o3) _ _ (Decompose 0 (zm 2 2 4))); [|reflexivity|discriminate].
  apply (given_copy _ _ _ _ _ (orun o2) _ _ 0); [|reflexivity].
  apply (given_decompose _ _ _ _ _ (orun o1) _ 0 (Obj (HLud 2) 0 1) (zm 2 2 0)); [|reflexivity| |reflexivity].
  - apply (reach_step _ _ _ _ _ (start om) _ (NewLud 0 2)); [constructor|reflexivity].
  - intros i j Hi Hj. cbn in Hi, Hj. smallz; vm_compute; reflexivity.
Qed.
Example C93_ex_solve : match ostep (orun o6) (LudSolve 1 false mat_ntrans (zm 2 1 8) (zm 2 1 10)) with
  | Some st => (smem st 10, smem st 11) = (Some (-10), Some 7) | None => False end.
Proof. vm_compute. reflexivity. Qed.
Example C93_ex_end : match ostep (orun o6) (Destroy 1) with
  | Some st => (vars st 0%nat, vars st 1%nat) = (None, None) /\ map (heap st) [0; 1; 2; 3; 4]%nat = [None; None; None; None; None] | None => False end.
Proof. vm_compute. split; reflexivity. Qed.
(** Copies of a qrd and of a chold object. *)
Definition q3 : list (@op Zring) := [NewQrd 0 3 2 saveq1; Decompose 0 (zm 3 2 0); Copy 1 0; Destroy 0].
Example C93_ex_qrd : match ostep
    (fold_left (fun st o => match ostep st o with Some st' => st' | None => st end) q3 (start zmem)) (QrdLsqsol 1 false (zm 3 1 6) (zm 2 1 9)) with
  | Some st => (smem st 9, smem st 10) = (Some (-4), Some 3) | None => False end.
Proof. vm_compute. reflexivity. Qed.

(** Defect: assignment of one solver object to another of the same size is
    undefined: the assignment operators of chold and qrd copy the members and
    then end without returning anything (cholesky.hpp 46-53, qr.hpp 67-78),
    and that of lud does not compile (lu.hpp 48-55). *)
Theorem C93_assign_refuted :
  exists (conj : Zring -> Zring) kdiv geqrf getrf potrf (st : state) (A A' : nat -> nat -> Zring),
    given conj kdiv geqrf getrf potrf st 0 (Chold true) 2 2 A /\ given conj kdiv geqrf getrf potrf st 1 (Chold true) 2 2 A' /\
    step conj kdiv geqrf getrf potrf st (Assign 0 1) = None.
Proof.
  pose (s1 := orun [NewChold 0 true 2]). pose (s2 := orun [NewChold 0 true 2; Decompose 0 (zm 2 2 4)]). pose (s3 := orun [NewChold 0 true 2; Decompose 0 (zm 2 2 4); Copy 1 0]).
  assert (G : given (K := Zring) idz zdiv zq olu zch s2 0 (Chold true) 2 2 zC).
  { apply (given_decompose _ _ _ _ _ s1 _ 0 (Obj (HChold true 2) 0 1) (zm 2 2 4)); [|reflexivity| |reflexivity].
    - apply (reach_step _ _ _ _ _ (start om) _ (NewChold 0 true 2)); [constructor|reflexivity].
    - intros i j Hi Hj. cbn in Hi, Hj. smallz; vm_compute; reflexivity. }
  exists idz, zdiv, zq, olu, zch, s3, zC, zC. split; [|split; [|reflexivity]].
  - apply (given_keep _ _ _ _ _ s2 _ _ (Copy 1 0)); [exact G|reflexivity|discriminate].
  - apply (given_copy _ _ _ _ _ s2 _ _ 0); [exact G|reflexivity].
Qed.

Print Assumptions C93_lud.
Print Assumptions C93_chold.
Print Assumptions C93_qrd_lsqsol.
Print Assumptions C93_qrd_covsol.
Print Assumptions C93_again.
Print Assumptions C93_copy.
Print Assumptions C93_destroy.
Print Assumptions C93_no_leak.
Print Assumptions C93_assign_refuted.
