(** C65: the linear solvers solve the system they are given. *)
From Coq Require Import ZArith List Lia Bool Arith.
From Verif Require Import Base Freqswap Conv Matvec Solver SolverProofs.
Import ListNotations.
Local Open Scope nat_scope.

Section P.
Context {K : CRing} (conj : K -> K) (kdiv : K -> K -> option K).
Context (geqrf : nat -> nat -> list K -> nat -> option (list K * list K)).
Context (getrf : nat -> list K -> nat -> option (list K * list nat * bool)).
Context (potrf : bool -> nat -> list K -> nat -> option (list K * bool)).
Local Open Scope cr_scope.
Add Ring Kring : (r_th K).

(** llsqsol(A, B, x): for every A of full column rank each column of x is the
    least-squares solution: it satisfies the normal equations, and for every
    other Y the squared distance of A Y and B is that of A X and B plus
    that of A Y and A X.  Only x is changed; x may share storage with A or B. *)
Theorem C65_llsqsol cplx (a b x : block2) (A B : nat -> nat -> K) (m : mem K) :
  conj_ok conj -> div_ok kdiv ->
  (1 <= cols a <= rows a)%nat -> rows b = rows a -> rows x = cols a -> cols x = cols b ->
  holds2 m a A -> holds2 m b B -> wf2 m x ->
  geqrf_for conj geqrf (rows a) (cols a) A -> full_column_rank (rows a) (cols a) A ->
  exists m' X, llsqsol conj kdiv geqrf cplx a b x m = Some m' /\ only2 x m m' /\ holds2 m' x X /\
    (forall i j, (i < cols a)%nat -> (j < cols b)%nat ->
       mmul (rows a) (adj conj A) (mmul (cols a) A X) i j = mmul (rows a) (adj conj A) B i j) /\
    forall Y j, (j < cols b)%nat ->
      sqdist conj (rows a) (mmul (cols a) A Y) B j =
      sqdist conj (rows a) (mmul (cols a) A X) B j + sqdist conj (rows a) (mmul (cols a) A Y) (mmul (cols a) A X) j.
Proof.
  intros CJ DV S E1 E2 E3 HA HB W G FR.
  destruct (llsqsol_ok conj kdiv DV CJ geqrf cplx a b x A B m S E1 E2 E3 HA HB W G FR) as (m' & X & E & O & H & Eq).
  exists m', X. split; [exact E|]. split; [exact O|]. split; [exact H|]. split; [exact Eq|].
  intros Y j Hj. apply pythagoras; [exact CJ|]. intros i Hi. apply Eq; assumption.
Qed.

(** covsol(A, B, x): A^H A x = B; besides x only the new matrix [b1] of the
    function is changed. *)
Theorem C65_covsol cplx (a b x b1 : block2) (A B : nat -> nat -> K) (m : mem K) :
  conj_ok conj -> div_ok kdiv -> (cplx = false -> forall u, conj u = u) ->
  (1 <= cols a <= rows a)%nat -> rows b = cols a -> rows x = cols a -> cols x = cols b ->
  rows b1 = cols a -> cols b1 = cols b -> wf2 m b1 -> disjoint2 x b1 ->
  holds2 m a A -> holds2 m b B -> wf2 m x ->
  geqrf_for conj geqrf (rows a) (cols a) A -> full_column_rank (rows a) (cols a) A ->
  exists m' X, covsol conj kdiv geqrf cplx a b x b1 m = Some m' /\
    (forall z, (forall i j, (i < rows x)%nat -> (j < cols x)%nat -> addr2 x i j <> z) ->
               (forall i j, (i < rows b1)%nat -> (j < cols b1)%nat -> addr2 b1 i j <> z) -> m' z = m z) /\
    holds2 m' x X /\
    forall i j, (i < cols a)%nat -> (j < cols b)%nat -> mmul (cols a) (mmul (rows a) (adj conj A) A) X i j = B i j.
Proof. intros CJ DV. exact (covsol_ok conj kdiv DV CJ geqrf cplx a b x b1 A B m). Qed.

(** A qrd object, once decomposed, serves any number of solves with whatever
    the memory then holds.  lsqsol: least squares. *)
Theorem C65_qrd_lsqsol cplx st (a : block2) (A : nat -> nat -> K) (m : mem K) :
  conj_ok conj -> div_ok kdiv -> (1 <= cols a <= rows a)%nat -> holds2 m a A ->
  geqrf_for conj geqrf (rows a) (cols a) A -> full_column_rank (rows a) (cols a) A ->
  exists q0 q, qrd_new (rows a) (cols a) st = Some q0 /\ qrd_decompose geqrf q0 a m = Some q /\
    forall (b x : block2) (B : nat -> nat -> K) (m : mem K),
      rows b = rows a -> rows x = cols a -> cols x = cols b -> holds2 m b B -> wf2 m x ->
      exists m' X, qrd_lsqsol conj kdiv cplx q b x m = Some m' /\ only2 x m m' /\ holds2 m' x X /\
        forall i j, (i < cols a)%nat -> (j < cols b)%nat ->
          mmul (rows a) (adj conj A) (mmul (cols a) A X) i j = mmul (rows a) (adj conj A) B i j.
Proof.
  intros CJ DV S HA G FR. destruct (qr_pipe conj geqrf _ _ st a A m S eq_refl eq_refl HA G) as (q0 & q & E0 & E & R1 & R2 & _ & QF).
  exists q0, q. split; [exact E0|]. split; [exact E|]. intros b x B m1. rewrite <- R1, <- R2 in *. intros E1 E2 E3.
  apply (lsqsol_ok conj kdiv DV CJ cplx q A b x B m1 QF (rank_qr conj kdiv _ _ A _ _ (proj2 QF) FR) E1 E2 E3).
Qed.

(** covsol: A^H A X = B. *)
Theorem C65_qrd_covsol cplx st (a : block2) (A : nat -> nat -> K) (m : mem K) :
  conj_ok conj -> div_ok kdiv -> (cplx = false -> forall u, conj u = u) -> (1 <= cols a <= rows a)%nat -> holds2 m a A ->
  geqrf_for conj geqrf (rows a) (cols a) A -> full_column_rank (rows a) (cols a) A ->
  exists q0 q, qrd_new (rows a) (cols a) st = Some q0 /\ qrd_decompose geqrf q0 a m = Some q /\
    forall (b x : block2) (B : nat -> nat -> K) (m : mem K),
      rows b = cols a -> rows x = cols a -> cols x = cols b -> holds2 m b B -> wf2 m x ->
      exists m' X, qrd_covsol conj kdiv cplx q b x m = Some m' /\ only2 x m m' /\ holds2 m' x X /\
        forall i j, (i < cols a)%nat -> (j < cols b)%nat -> mmul (cols a) (mmul (rows a) (adj conj A) A) X i j = B i j.
Proof.
  intros CJ DV RC S HA G FR. destruct (qr_pipe conj geqrf _ _ st a A m S eq_refl eq_refl HA G) as (q0 & q & E0 & E & R1 & R2 & _ & QF).
  exists q0, q. split; [exact E0|]. split; [exact E|]. intros b x B m1. rewrite <- R1, <- R2 in *. intros E1 E2 E3.
  apply (covsol_m_ok conj kdiv DV CJ cplx q A b x B m1 RC QF (rank_qr conj kdiv _ _ A _ _ (proj2 QF) FR) E1 E2 E3).
Qed.

(** rsol: op(R) X = alpha B, for one upper-triangular R with R^H R = A^H A. *)
Theorem C65_qrd_rsol st (a : block2) (A : nat -> nat -> K) (m : mem K) :
  conj_ok conj -> div_ok kdiv -> (1 <= cols a <= rows a)%nat -> holds2 m a A ->
  geqrf_for conj geqrf (rows a) (cols a) A -> full_column_rank (rows a) (cols a) A ->
  exists q0 q R, qrd_new (rows a) (cols a) st = Some q0 /\ qrd_decompose geqrf q0 a m = Some q /\
    (forall i j, (j < i)%nat -> R i j = 0) /\
    (forall i j, (i < cols a)%nat -> (j < cols a)%nat -> mmul (cols a) (adj conj R) R i j = mmul (rows a) (adj conj A) A i j) /\
    forall tr alpha (b x : block2) (B : nat -> nat -> K) (m : mem K), tr <> mat_conj ->
      rows b = cols a -> rows x = cols a -> cols x = cols b -> holds2 m b B -> wf2 m x ->
      exists m' X, qrd_rsol conj kdiv tr q b alpha x m = Some m' /\ only2 x m m' /\ holds2 m' x X /\
        forall i j, (i < cols a)%nat -> (j < cols b)%nat ->
          sum (fun k => op_elem conj tr R i k * X k j) (cols a) = alpha * B i j.
Proof.
  intros CJ DV S HA G FR. destruct (qr_pipe conj geqrf _ _ st a A m S eq_refl eq_refl HA G) as (q0 & q & E0 & E & R1 & R2 & _ & QF).
  exists q0, q, (rmat (q_data q) (q_rows q)). split; [exact E0|]. split; [exact E|]. rewrite <- R1, <- R2 in *.
  split; [intros i j H; apply rmat_up; exact H|]. split.
  - intros i j Hi Hj. symmetry. apply (qr_gram conj kdiv CJ _ _ A _ (q_tau q)); try assumption; [lia|apply QF].
  - intros tr alpha b x B m1 Tr E1 E2 E3. apply (rsol_ok conj kdiv DV CJ tr q A b x alpha B m1 Tr QF (rank_qr conj kdiv _ _ A _ _ (proj2 QF) FR) E1 E2 E3).
Qed.

(** prodq: X = op(Q) B or X = B op(Q), for one matrix Q, unitary when all of Q is
    kept (qrd_saveq) and with orthonormal columns otherwise, with A = Q R for
    an upper-triangular R.
    Missing: with qrd_saveq1 and more rows than columns, Q B and B op(Q) with a
    transposed Q (see the next theorems). *)
Theorem C65_qrd_prodq_partial cplx st (a : block2) (A : nat -> nat -> K) (m : mem K) :
  conj_ok conj -> (cplx = false -> forall u, conj u = u) -> (1 <= cols a <= rows a)%nat -> holds2 m a A ->
  geqrf_for conj geqrf (rows a) (cols a) A -> st <> nosaveq ->
  let w := match st with saveq1 => cols a | _ => rows a end in
  exists q0 q Q R, qrd_new (rows a) (cols a) st = Some q0 /\ qrd_decompose geqrf q0 a m = Some q /\
    (forall i j, (i < w)%nat -> (j < w)%nat -> mmul (rows a) (adj conj Q) Q i j = delta i j) /\
    (forall i j, (j < i)%nat -> R i j = 0) /\
    (forall i j, (i < rows a)%nat -> (j < cols a)%nat -> A i j = mmul (cols a) Q R i j) /\
    forall tr (lside : bool) (b x : block2) (B : nat -> nat -> K) (m : mem K), op_of_type cplx tr ->
      (st = saveq1 -> rows a = cols a \/ lside = transposes tr) ->
      (if lside then rows b = (if transposes tr then rows a else w) /\ rows x = (if transposes tr then w else rows a) /\ cols x = cols b
       else cols b = (if transposes tr then w else rows a) /\ cols x = (if transposes tr then rows a else w) /\ rows x = rows b /\ (1 <= rows b)%nat) ->
      holds2 m b B -> wf2 m x ->
      exists m', qrd_prodq conj cplx tr lside q b x m = Some m' /\ only2 x m m' /\
        holds2 m' x (fun i j => if lside then sum (fun k => op_elem conj tr Q i k * B k j) (rows b)
                                else sum (fun k => B i k * op_elem conj tr Q k j) (cols b)).
Proof.
  intros CJ RC S HA G St w. destruct (qr_pipe conj geqrf _ _ st a A m S eq_refl eq_refl HA G) as (q0 & q & E0 & E & R1 & R2 & R3 & QF).
  exists q0, q, (qprod conj (q_rows q) (q_data q) (q_rows q) (q_tau q) (q_cols q)), (rmat (q_data q) (q_rows q)).
  split; [exact E0|]. split; [exact E|]. pose proof QF as (_ & _ & _ & U1 & _ & F). unfold w. clear w. rewrite <- R1, <- R2, <- R3 in *.
  split. { intros i j Hi Hj. apply U1; destruct (q_store q); lia. }
  split; [intros i j H; apply rmat_up; exact H|]. split; [exact F|].
  intros tr lside b x B m1 Op Sq Sz HB W. replace (transposes tr) with (is_trans tr) in * by (destruct tr; reflexivity). apply (prodq_ok conj kdiv cplx tr lside q A b x B m1); try assumption.
  - destruct Op as [->| ->]; [discriminate|destruct cplx; discriminate].
  - destruct Op as [->| ->]; [reflexivity|destruct cplx; reflexivity].
Qed.

(** lud: after decompose of a regular A, solve<tr> gives op(A) X = B. *)
Theorem C65_lud_solve cplx (a : block2) (A : nat -> nat -> K) (m : mem K) :
  conj_ok conj -> div_ok kdiv -> (1 <= rows a)%nat -> cols a = rows a -> holds2 m a A ->
  getrf_for getrf (rows a) A -> full_column_rank (rows a) (rows a) A ->
  exists l0 l ok, lud_new (rows a) = Some l0 /\ lud_decompose getrf l0 a m = Some (l, ok) /\
    forall tr (b x : block2) (B : nat -> nat -> K) (m : mem K), tr <> mat_conj -> (tr = mat_herm -> cplx = true) ->
      rows b = rows a -> rows x = rows b -> cols x = cols b -> holds2 m b B -> wf2 m x ->
      exists m' X, lud_solve conj kdiv cplx tr l b x m = Some m' /\ only2 x m m' /\ holds2 m' x X /\
        forall i j, (i < rows a)%nat -> (j < cols b)%nat -> sum (fun k => op_elem conj tr A i k * X k j) (rows a) = B i j.
Proof.
  intros CJ DV S E1 HA G FR. destruct (lu_pipe geqrf getrf _ a A m S eq_refl E1 HA G) as (l0 & l & ok & E0 & E & R & F).
  exists l0, l, ok. split; [exact E0|]. split; [exact E|]. intros tr b x B m1 Tr Th. pose proof (rank_lu conj kdiv (rows a) A _ _ F FR) as FD. rewrite <- R in *.
  intros. apply (lud_solve_ok conj kdiv DV CJ cplx tr l A b x B m1); assumption.
Qed.

(** chold: after decompose of a regular Hermitian A, of which only the chosen
    triangle is read by the factorization, solve gives A X = B. *)
Theorem C65_chold_solve u (a : block2) (A : nat -> nat -> K) (m : mem K) :
  conj_ok conj -> div_ok kdiv -> (1 <= rows a)%nat -> cols a = rows a -> holds2 m a A ->
  (forall i j, (i < rows a)%nat -> (j < rows a)%nat -> A i j = conj (A j i)) ->
  potrf_for conj potrf u (rows a) A -> full_column_rank (rows a) (rows a) A ->
  exists c0 c, chold_new u (rows a) = Some c0 /\ chold_decompose potrf c0 a m = Some (c, true) /\
    forall (b x : block2) (B : nat -> nat -> K) (m : mem K),
      rows b = rows a -> rows x = rows b -> cols x = cols b -> holds2 m b B -> wf2 m x ->
      exists m' X, chold_solve conj kdiv c b x m = Some m' /\ only2 x m m' /\ holds2 m' x X /\
        forall i j, (i < rows a)%nat -> (j < cols b)%nat -> sum (fun k => A i k * X k j) (rows a) = B i j.
Proof.
  intros CJ DV S E1 HA Hm G FR. destruct (chol_pipe conj geqrf getrf potrf u _ a A m S eq_refl E1 HA G) as (c0 & c & E0 & E & R & R' & F).
  exists c0, c. split; [exact E0|]. split; [exact E|]. intros b x B m1. pose proof (rank_chol conj kdiv CJ u (rows a) A _ F Hm FR) as FD. rewrite <- R, <- R' in *.
  intros. apply (chold_solve_ok conj kdiv DV CJ c A b x B m1); assumption.
Qed.
End P.

(** ** Concrete cases *)
Local Open Scope Z_scope.
Definition zdiv (a b : Z) : option Z := if b =? 0 then None else if a mod b =? 0 then Some (a / b) else None.
Definition idz (z : Z) : Z := z.
Example z_conj : conj_ok (K := Zring) idz.
Proof. split; reflexivity. Qed.
Example z_div : div_ok (K := Zring) zdiv.
Proof.
  split; cbn; intros a b q; unfold zdiv.
  - destruct (Z.eqb_spec b 0); [discriminate|]. destruct (Z.eqb_spec (a mod b) 0) as [e|]; [|discriminate]. intros [= <-]. pose proof (Z.div_mod a b ltac:(assumption)). lia.
  - intros H. destruct (Z.eq_mul_1 _ _ H) as [-> | ->]; cbn [Z.eqb].
    + rewrite Z.mod_1_r. discriminate.
    + change (- (1)) with (-1). replace (a mod -1) with 0 by (symmetry; apply Z.mod_divide; [lia|exists (- a); lia]). discriminate.
Qed.
(** Row-major matrices at [base]. *)
Definition zm (r c : nat) (base : Z) : block2 := {| rows := r; cols := c; addr2 := fun i j => base + Z.of_nat (i * c + j); blk := 0%nat |}.
(** A = [[0,0],[1,5],[0,1]] at 0, b = (7,11,3) at 6, x at 9. *)
Definition zA : nat -> nat -> Zring := fun i j => nth j (nth i [[0; 0]; [1; 5]; [0; 1]] []) 0.
Definition zmem : mem Zring := mem_of (V := Zring) [0; 0; 1; 5; 0; 1; 7; 11; 3; 100; 100; 100; 100].
Definition zq : nat -> nat -> list Zring -> nat -> option (list Zring * list Zring) := fun _ _ _ _ => Some ([1; -1; 0; 5; 1; -1], [1; 1]).
Ltac smallz := repeat match goal with
  | H : (?i < S _)%nat |- _ => destruct i as [|i]; [clear H|apply Nat.succ_lt_mono in H]
  | H : (_ < 0)%nat |- _ => exfalso; inversion H end.
Example z_qr : geqrf_for (K := Zring) idz zq 3 2 zA.
Proof.
  intros d _. exists [1; -1; 0; 5; 1; -1], [1; 1]. split; [reflexivity|].
  split; [reflexivity|]. split; [reflexivity|]. repeat split; intros i j Hi Hj; smallz; vm_compute; reflexivity.
Qed.
Example z_rank : full_column_rank (K := Zring) 3 2 zA.
Proof. exists (fun i k => nth k (nth i [[0; 1; -5]; [0; 0; 1]] []) 0). intros i j Hi Hj. smallz; vm_compute; reflexivity. Qed.
Example z_holds : holds2 zmem (zm 3 2 0) zA.
Proof. intros i j Hi Hj. cbn in Hi, Hj. smallz; vm_compute; reflexivity. Qed.
Example z_wf : wf2 zmem (zm 2 1 9).
Proof. split; intros i j; [|intros i' j']; intros; cbn [zm rows cols addr2] in *; smallz; vm_compute in *; try discriminate; auto. Qed.
Example z_llsqsol : match llsqsol (K := Zring) idz zdiv zq false (zm 3 2 0) (zm 3 1 6) (zm 2 1 9) zmem with
  | Some m => (m 9, m 10, m 11) = (Some (-4), Some 3, Some 100) | None => False end.
Proof. vm_compute. reflexivity. Qed.
(** The same in place: x in the first elements of b. *)
Example z_llsqsol_alias : match llsqsol (K := Zring) idz zdiv zq false (zm 3 2 0) (zm 3 1 6) (zm 2 1 6) zmem with
  | Some m => (m 6, m 7, m 8) = (Some (-4), Some 3, Some 3) | None => False end.
Proof. vm_compute. reflexivity. Qed.
(** A^T A = [[1,5],[5,26]] and (7, 11): X = (127, -24). *)
Example z_covsol : match covsol (K := Zring) idz zdiv zq false (zm 3 2 0) (zm 2 1 6) (zm 2 1 9) (zm 2 1 11) zmem with
  | Some m => (m 9, m 10) = (Some 127, Some (-24)) | None => False end.
Proof. vm_compute. reflexivity. Qed.
(** LU of [[0,1],[1,3]], with a row exchange. *)
Definition zL : nat -> nat -> Zring := fun i j => nth j (nth i [[0; 1]; [1; 3]] []) 0.
Definition zlu : nat -> list Zring -> nat -> option (list Zring * list nat * bool) := fun _ _ _ => Some ([1; 0; 3; 1], [1%nat; 1%nat], true).
Example z_lu : getrf_for (K := Zring) zlu 2 zL.
Proof.
  intros d _. exists [1; 0; 3; 1], [1%nat; 1%nat], true. split; [reflexivity|]. split; [reflexivity|]. split; [reflexivity|].
  split; [intros i Hi; smallz; cbn; lia|]. intros i j Hi Hj; smallz; vm_compute; reflexivity.
Qed.
Example z_lu_rank : full_column_rank (K := Zring) 2 2 zL.
Proof. exists (fun i k => nth k (nth i [[-3; 1]; [1; 0]] []) 0). intros i j Hi Hj. smallz; vm_compute; reflexivity. Qed.
Example z_lu_solve : match lud_solve (K := Zring) idz zdiv false mat_trans {| l_len := 2; l_data := ([1; 0; 3; 1] : list Zring); l_piv := [1%nat; 1%nat] |}
    (zm 2 1 6) (zm 2 1 9) zmem with Some m => (m 9, m 10) = (Some (-10), Some 7) | None => False end.
Proof. vm_compute. reflexivity. Qed.
(** Cholesky of [[1,2],[2,5]], both triangles. *)
Definition zC : nat -> nat -> Zring := fun i j => nth j (nth i [[1; 2]; [2; 5]] []) 0.
Definition zch : bool -> nat -> list Zring -> nat -> option (list Zring * bool) :=
  fun u _ _ _ => Some (if u then [1; 77; 2; 1] else [1; 2; 77; 1], true).
Example z_chol u : potrf_for (K := Zring) idz zch u 2 zC.
Proof.
  intros d _. eexists. split; [reflexivity|]. split; [destruct u; reflexivity|].
  intros i j Hi Hj; destruct u; smallz; intros; try lia; vm_compute; reflexivity.
Qed.
Example z_chol_rank : full_column_rank (K := Zring) 2 2 zC.
Proof. exists (fun i k => nth k (nth i [[5; -2]; [-2; 1]] []) 0). intros i j Hi Hj. smallz; vm_compute; reflexivity. Qed.
Example z_chol_solve : match chold_solve (K := Zring) idz zdiv {| c_upper := false; c_len := 2; c_data := ([1; 2; 77; 1] : list Zring) |}
    (zm 2 1 6) (zm 2 1 9) zmem with Some m => (m 9, m 10) = (Some 13, Some (-3)) | None => False end.
Proof. vm_compute. reflexivity. Qed.
(** Q^T b with the thin Q. *)
Definition zqr (st : storage) : qrd (K := Zring) := {| q_rows := 3; q_cols := 2; q_store := st; q_data := ([1; -1; 0; 5; 1; -1] : list Zring); q_tau := ([1; 1] : list Zring) |}.
Example z_prodq : match qrd_prodq (K := Zring) idz false mat_trans true (zqr saveq1) (zm 3 1 6) (zm 2 1 9) zmem with
  | Some m => (m 9, m 10, m 11) = (Some 11, Some 3, Some 100) | None => False end.
Proof. vm_compute. reflexivity. Qed.

(** With qrd_saveq1 the product Q B of the thin Q (rows by columns) and a matrix
    with as many rows as Q has columns is refused by no test, but LAPACK is told
    that Q is square of the order of B, and then rows of its result are read
    that do not exist. *)
Theorem C65_prodq_saveq1_refuted :
  ~ (forall (A : nat -> nat -> Zring) (a b x : block2) (B : nat -> nat -> Zring) (m : mem Zring) geqrf,
       (1 <= cols a <= rows a)%nat -> holds2 m a A -> geqrf_for (K := Zring) idz geqrf (rows a) (cols a) A ->
       rows b = cols a -> rows x = rows a -> cols x = cols b -> holds2 m b B -> wf2 m x ->
       exists q0 q m', qrd_new (rows a) (cols a) saveq1 = Some q0 /\ qrd_decompose geqrf q0 a m = Some q /\
         qrd_prodq (K := Zring) idz false mat_ntrans true q b x m = Some m').
Proof.
  intros H. destruct (H zA (zm 3 2 0) (zm 2 1 6) (zm 3 1 9) (fun i _ => nth i [7; 11] 0) zmem zq) as (q0 & q & m' & E0 & E & P).
  - cbn. lia.
  - exact z_holds.
  - exact z_qr.
  - reflexivity.
  - reflexivity.
  - reflexivity.
  - intros i j Hi Hj. cbn in Hi, Hj. smallz; vm_compute; reflexivity.
  - clear H. split; intros i j; [|intros i' j']; intros; cbn [zm rows cols addr2] in *; smallz; vm_compute in *; try discriminate; auto.
  - vm_compute in E0. injection E0 as <-. vm_compute in E. injection E as <-. vm_compute in P. discriminate.
Qed.

(** The same for B Q^T, with the thin Q. *)
Theorem C65_prodq_saveq1_right_refuted :
  ~ (forall (A : nat -> nat -> Zring) (a b x : block2) (B : nat -> nat -> Zring) (m : mem Zring) geqrf,
       (1 <= cols a <= rows a)%nat -> holds2 m a A -> geqrf_for (K := Zring) idz geqrf (rows a) (cols a) A ->
       cols b = cols a -> cols x = rows a -> rows x = rows b -> holds2 m b B -> wf2 m x ->
       exists q0 q m', qrd_new (rows a) (cols a) saveq1 = Some q0 /\ qrd_decompose geqrf q0 a m = Some q /\
         qrd_prodq (K := Zring) idz false mat_trans false q b x m = Some m').
Proof.
  intros H. destruct (H zA (zm 3 2 0) (zm 1 2 6) (zm 1 3 9) (fun _ j => nth j [7; 11] 0) zmem zq) as (q0 & q & m' & E0 & E & P).
  - cbn. lia.
  - exact z_holds.
  - exact z_qr.
  - reflexivity.
  - reflexivity.
  - reflexivity.
  - intros i j Hi Hj. cbn in Hi, Hj. smallz; vm_compute; reflexivity.
  - clear H. split; intros i j; [|intros i' j']; intros; cbn [zm rows cols addr2] in *; smallz; vm_compute in *; try discriminate; auto.
  - vm_compute in E0. injection E0 as <-. vm_compute in E. injection E as <-. vm_compute in P. discriminate.
Qed.

Print Assumptions C65_llsqsol.
Print Assumptions C65_covsol.
Print Assumptions C65_qrd_lsqsol.
Print Assumptions C65_qrd_covsol.
Print Assumptions C65_qrd_rsol.
Print Assumptions C65_qrd_prodq_partial.
Print Assumptions C65_lud_solve.
Print Assumptions C65_chold_solve.
Print Assumptions C65_prodq_saveq1_refuted.
Print Assumptions C65_prodq_saveq1_right_refuted.
