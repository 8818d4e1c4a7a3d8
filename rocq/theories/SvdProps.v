(** C70: the singular value decomposition. *)
From Coq Require Import ZArith List Lia Bool Arith.
From Verif Require Import Base Freqswap Conv Matvec Solver Svd SvdProofs.
Import ListNotations.
Local Open Scope nat_scope.

Section P.
Context {K : CRing} (conj : K -> K).
Context (gebrd : nat -> nat -> list K -> nat -> option (list K * list K * list K * list K * list K)).
Context (gbr : vect -> nat -> nat -> nat -> list K -> nat -> list K -> option (list K)).
Context (bdsqr : bool -> nat -> nat -> nat -> list K -> list K -> list K -> nat -> list K -> nat -> option (list K * list K * list K)).
Context (sv : list K -> Prop).
Local Open Scope cr_scope.
Add Ring Kring : (r_th K).

(** An svd object can be made for every non-empty size and every choice of what to keep of U and V. *)
Theorem C70_construct M N ust vst : (1 <= M)%nat -> (1 <= N)%nat -> exists s, svd_new (K := K) M N ust vst = Some s.
Proof. intros HM HN. unfold svd_new. rewrite (proj2 (Nat.ltb_lt 0 M)), (proj2 (Nat.ltb_lt 0 N)) by lia. eexists. reflexivity. Qed.

(** decompose(A, dest), on a new object or on one used before, finds a factorization A = U S V^H with unitary U (M by M)
    and V (N by N) and diagonal S, puts the min(M, N) singular values into dest and changes nothing else;
    from then on, whatever the memory then holds: u(low, high, x) and v(low, high, x) give the columns low to high of
    U and of V; produ and prodv give op(U) b, b op(U), op(V) b and b op(V), where U and V are cut down to
    the columns that are kept, for b not overlapping x; and the by-value forms make a result of exactly that
    size. *)
Theorem C70_svd cplx M N ust vst (s : svd) (a : block2) (dest : block1) (A : nat -> nat -> K) (m : mem K) :
  conj_ok conj -> (cplx = false -> forall u, conj u = u) ->
  svd_obj conj gebrd gbr bdsqr sv M N ust vst s ->
  rows a = M -> cols a = N -> len dest = Nat.min M N -> holds2 m a A -> wf1 m dest ->
  gebrd_for conj gebrd gbr bdsqr sv M N A ->
  exists s' m' U V S, svd_decompose gebrd gbr bdsqr s a dest m = Some (s', m') /\
    svd_obj conj gebrd gbr bdsqr sv M N ust vst s' /\
    only1 dest m m' /\ holds1 m' dest (fun r => nth r S 0) /\ sv S /\ length S = Nat.min M N /\
    unitary conj M U /\ unitary conj N V /\
    (forall i j, (i < M)%nat -> (j < N)%nat -> A i j = sum (fun r => U i r * nth r S 0 * conj (V j r)) (Nat.min M N)) /\
    (forall low high (x : block2) (m : mem K), (low <= high)%nat -> (high < kept ust M (Nat.min M N))%nat ->
       rows x = M -> cols x = (high + 1 - low)%nat -> wf2 m x ->
       exists m', svd_u s' low high x m = Some m' /\ only2 x m m' /\ holds2 m' x (fun i j => U i (low + j)%nat)) /\
    (forall low high (x : block2) (m : mem K), (low <= high)%nat -> (high < kept vst N (Nat.min M N))%nat ->
       rows x = N -> cols x = (high + 1 - low)%nat -> wf2 m x ->
       exists m', svd_v conj cplx s' low high x m = Some m' /\ only2 x m m' /\ holds2 m' x (fun i j => V i (low + j)%nat)) /\
    (forall tr (lside : bool) (b x : block2) (B : nat -> nat -> K) (m : mem K), op_of_type cplx tr -> ust <> uvnos ->
       holds2 m b B -> wf2 m x -> disjoint2 x b -> prod_shape tr lside M (kept ust M (Nat.min M N)) b x ->
       produ_size s' tr lside b = (rows x, cols x) /\
       exists m', svd_produ conj cplx tr lside s' b x m = Some m' /\ only2 x m m' /\
         holds2 m' x (prod_elem conj tr lside M (kept ust M (Nat.min M N)) U B)) /\
    (forall tr (lside : bool) (b x : block2) (B : nat -> nat -> K) (m : mem K), op_of_type cplx tr -> vst <> uvnos ->
       holds2 m b B -> wf2 m x -> disjoint2 x b -> prod_shape tr lside N (kept vst N (Nat.min M N)) b x ->
       prodv_size s' tr lside b = (rows x, cols x) /\
       exists m', svd_prodv conj cplx tr lside s' b x m = Some m' /\ only2 x m m' /\
         holds2 m' x (prod_elem conj tr lside N (kept vst N (Nat.min M N)) V B)).
Proof.
  intros CJ RC SO Ra Ca Ld HA W G. pose proof (svd_obj_shaped conj CJ gebrd gbr bdsqr sv M N ust vst s SO) as SH.
  destruct (svd_decompose_ok conj CJ gebrd gbr bdsqr sv M N ust vst s a dest A m SH Ra Ca Ld HA W G) as (s' & m' & U & V & S & E & SH' & HUV & O & H & SV & LS & UU & UV & EQ).
  exists s', m', U, V, S. split; [exact E|]. split; [exact (so_again _ _ _ _ sv M N ust vst s s' a dest A m m' SO Ra Ca Ld HA W G E)|].
  split; [exact O|]. split; [exact H|]. split; [exact SV|]. split; [exact LS|]. split; [exact UU|]. split; [exact UV|]. split; [exact EQ|].
  split; [|split; [|split]].
  - intros low high x m1 L1 L2 R1 C1 W1. apply (svd_u_ok conj CJ gebrd gbr bdsqr M N ust vst U V); assumption.
  - intros low high x m1 L1 L2 R1 C1 W1. apply (svd_v_ok conj CJ gebrd gbr bdsqr cplx M N ust vst U V); assumption.
  - intros tr lside b x B m1 OT NS HB W1 D SZ. split; [apply (proj1 (sizes_ok cplx M N ust vst s' tr lside b x SH' OT)); assumption|].
    apply (produ_ok conj CJ gebrd gbr bdsqr cplx M N ust vst U V); assumption.
  - intros tr lside b x B m1 OT NS HB W1 D SZ. split; [apply (proj2 (sizes_ok cplx M N ust vst s' tr lside b x SH' OT)); assumption|].
    apply (prodv_ok conj CJ gebrd gbr bdsqr cplx M N ust vst U V); assumption.
Qed.

(** Wrong requests are refused, at every object: an empty matrix at construction; matrices and result vectors of another size at
    decomposition; columns that are not kept; operands whose inner sizes differ; results of another size. *)
Theorem C70_refused cplx M N ust vst (s : svd) : conj_ok conj -> svd_obj conj gebrd gbr bdsqr sv M N ust vst s ->
  (forall M N ust vst, M = 0%nat \/ N = 0%nat -> svd_new (K := K) M N ust vst = None) /\
  (forall (a : block2) (dest : block1) (m : mem K), rows a <> M \/ cols a <> N \/ len dest <> Nat.min M N -> svd_decompose gebrd gbr bdsqr s a dest m = None) /\
  (forall low high (x : block2) (m : mem K), (kept ust M (Nat.min M N) <= high)%nat \/ rows x <> M \/ cols x <> (high + 1 - low)%nat -> svd_u s low high x m = None) /\
  (forall low high (x : block2) (m : mem K), (kept vst N (Nat.min M N) <= high)%nat \/ rows x <> N \/ cols x <> (high + 1 - low)%nat -> svd_v conj cplx s low high x m = None) /\
  (forall tr (lside : bool) (b x : block2) (m : mem K), op_of_type cplx tr -> ust <> uvnos ->
     ~ prod_shape tr lside M (kept ust M (Nat.min M N)) b x -> svd_produ conj cplx tr lside s b x m = None) /\
  (forall tr (lside : bool) (b x : block2) (m : mem K), op_of_type cplx tr -> vst <> uvnos ->
     ~ prod_shape tr lside N (kept vst N (Nat.min M N)) b x -> svd_prodv conj cplx tr lside s b x m = None).
Proof. intros CJ SO. apply (svd_refused conj CJ gebrd gbr bdsqr). apply (svd_obj_shaped conj CJ gebrd gbr bdsqr sv). exact SO. Qed.
End P.
Print Assumptions C70_construct.
Print Assumptions C70_svd.
Print Assumptions C70_refused.

(** ** A concrete case *)
Local Open Scope Z_scope.
Definition idz (z : Z) : Z := z.
Example z_conj : conj_ok (K := Zring) idz.
Proof. split; reflexivity. Qed.
(** The 2 by 1 matrix (0, 2): Q exchanges the rows, B = (2), and the last step changes two signs. *)
Definition ex_gebrd (M N : nat) (a : list Zring) (lda : nat) : option (list Zring * list Zring * list Zring * list Zring * list Zring) :=
  Some ([7; 8], [2], [], [1], [1]).
Definition ex_gbr (v : vect) (M N k : nat) (a : list Zring) (lda : nat) (tau : list Zring) : option (list Zring) :=
  Some (match v with VQ => firstn (2 * N) [0; 1; 1; 0] | VP => [1] end).
Definition ex_bdsqr (upper : bool) (n ncvt nru : nat) (d e vt : list Zring) (ldvt : nat) (u : list Zring) (ldu : nat) : option (list Zring * list Zring * list Zring) :=
  Some ([2] : list Zring, update (K := Zring) vt ldvt n ncvt (fun i j => 0 + (-1) * elt (K := Zring) vt ldvt 0 j),
        update (K := Zring) u ldu nru n (fun i j => 0 + elt (K := Zring) u ldu i 0 * -1)).
Definition exA : nat -> nat -> Zring := fun i j => nth i [0; 2] 0.
(** The singular values are not negative and decreasing. *)
Definition ex_sv (S : list Zring) : Prop := forall i j : nat, (i <= j < length S)%nat -> 0 <= nth j S 0 <= nth i S 0.
Ltac smallz := repeat match goal with
  | H : (?i < S _)%nat |- _ => destruct i as [|i]; [clear H|apply Nat.succ_lt_mono in H]
  | H : (_ < 0)%nat |- _ => exfalso; inversion H end.
Example ex_for : gebrd_for (K := Zring) idz ex_gebrd ex_gbr ex_bdsqr ex_sv 2 1 exA.
Proof.
  intros a _. exists [7; 8], [2], [], [1], [1], (fun i j => if Nat.eqb i j then 0 else 1), (fun _ _ => 1).
  cbn [Nat.min Nat.leb]. split; [reflexivity|]. split; [reflexivity|].
  split; [split; intros i j Hi Hj; smallz; vm_compute; reflexivity|]. split; [split; intros i j Hi Hj; smallz; vm_compute; reflexivity|].
  split; [intros i j Hi Hj; smallz; vm_compute; reflexivity|]. split; [|split].
  - exists (fun _ _ => -1), (fun _ _ => -1), [2]. split; [split; intros i j Hi Hj; smallz; vm_compute; reflexivity|]. split; [split; intros i j Hi Hj; smallz; vm_compute; reflexivity|].
    split; [intros i j H; cbn [length] in H; replace i with 0%nat by lia; replace j with 0%nat by lia; cbn; lia|]. split; [reflexivity|].
    split; [intros i j Hi Hj; smallz; vm_compute; reflexivity|]. intros. reflexivity.
  - intros c q Hc Lq Hq. eexists. split; [reflexivity|]. assert (c = 1 \/ c = 2)%nat as [-> | ->] by lia; (split; [reflexivity|]; intros i j Hi Hj; smallz; reflexivity).
  - intros r pt Hr Lp Hp. assert (r = 1)%nat as -> by lia. eexists. split; [reflexivity|]. split; [reflexivity|]. intros i j Hi Hj; smallz; reflexivity.
Qed.
(** A at 0, the singular value at 2, b at 3, x at 5. *)
Definition zm (r c : nat) (base : Z) : block2 := {| rows := r; cols := c; addr2 := fun i j => base + Z.of_nat (i * c + j); blk := 0%nat |}.
Definition zv (n : nat) (base : Z) : block1 := {| len := n; addr1 := fun i => base + Z.of_nat i |}.
Definition exmem : mem Zring := mem_of (V := Zring) [0; 2; 100; 5; 7; 100; 100; 100; 100].
Example ex_holds : holds2 exmem (zm 2 1 0) exA /\ wf1 exmem (zv 1 2).
Proof.
  split; [intros i j Hi Hj; cbn in Hi, Hj; smallz; vm_compute; reflexivity|].
  split; intros; cbn [zv len addr1] in *; smallz; vm_compute in *; try discriminate; auto.
Qed.
Definition ex_new : svd := {| s_m := 2; s_n := 1; s_ust := uvfull; s_vst := uvpart; s_q := ([0; 0; 0; 0] : list Zring); s_pt := ([0] : list Zring) |}.
Example ex_obj : svd_obj (K := Zring) idz ex_gebrd ex_gbr ex_bdsqr ex_sv 2 1 uvfull uvpart ex_new.
Proof. apply so_new. reflexivity. Qed.
Definition ex_done : svd := {| s_m := 2; s_n := 1; s_ust := uvfull; s_vst := uvpart; s_q := ([0; -1; 1; 0] : list Zring); s_pt := ([-1] : list Zring) |}.
Definition ex_after : mem Zring := match put1 exmem (zv 1 2) 0 (2 : Zring) with Some m => m | None => exmem end.
Example ex_run : svd_decompose (K := Zring) ex_gebrd ex_gbr ex_bdsqr ex_new (zm 2 1 0) (zv 1 2) exmem = Some (ex_done, ex_after) /\ ex_after 2 = Some (2 : Zring).
Proof. split; reflexivity. Qed.
Example ex_obj2 : svd_obj (K := Zring) idz ex_gebrd ex_gbr ex_bdsqr ex_sv 2 1 uvfull uvpart ex_done.
Proof. apply (so_again _ _ _ _ _ _ _ _ _ ex_new ex_done (zm 2 1 0) (zv 1 2) exA exmem ex_after ex_obj); try reflexivity; [apply ex_holds|apply ex_holds|exact ex_for]. Qed.
(** U^T b = (-7, 5) and the last column of U. *)
Example ex_produ : match svd_produ (K := Zring) idz false mat_trans true ex_done (zm 2 1 3) (zm 2 1 5) exmem with Some m => (m 5, m 6) = (Some (-7), Some 5) | None => False end.
Proof. vm_compute. reflexivity. Qed.
Example ex_u : match svd_u (K := Zring) ex_done 1 1 (zm 2 1 5) exmem with Some m => (m 5, m 6) = (Some 1, Some 0) | None => False end.
Proof. vm_compute. reflexivity. Qed.
Example ex_prodv : match svd_prodv (K := Zring) idz false mat_ntrans false ex_done (zm 2 1 3) (zm 2 1 5) exmem with Some m => (m 5, m 6) = (Some (-5), Some (-7)) | None => False end.
Proof. vm_compute. reflexivity. Qed.

(** The restriction to operands that do not overlap is needed: unlike
    prodq of a qrd object, produ(b, b) returns, having overwritten b with something else than U b, because
    the product is evaluated straight into its destination. *)
Theorem C70_in_place_refuted :
  exists (s : svd) (b : block2) (B : nat -> nat -> Zring) (m m' : mem Zring),
    svd_obj (K := Zring) idz ex_gebrd ex_gbr ex_bdsqr ex_sv 2 1 uvfull uvpart s /\ holds2 m b B /\ wf2 m b /\
    prod_shape mat_ntrans true 2 (kept uvfull 2 1) b b /\
    svd_produ (K := Zring) idz false mat_ntrans true s b b m = Some m' /\
    (exists U : nat -> nat -> Zring,
       (forall i j, (i < 2)%nat -> (j < 2)%nat -> exists m1, svd_u (K := Zring) s 0 1 (zm 2 2 5) m = Some m1 /\ m1 (addr2 (zm 2 2 5) i j) = Some (U i j)) /\
       ~ holds2 m' b (prod_elem (K := Zring) idz mat_ntrans true 2 2 U B)).
Proof.
  destruct (svd_produ (K := Zring) idz false mat_ntrans true ex_done (zm 2 1 3) (zm 2 1 3) exmem) as [m'|] eqn:E; [|vm_compute in E; discriminate].
  exists ex_done, (zm 2 1 3), (fun i j => nth i [5; 7] 0), exmem, m'. split; [exact ex_obj2|].
  split; [intros i j Hi Hj; cbn in Hi, Hj; smallz; vm_compute; reflexivity|].
  split; [split; intros i j; [|intros i' j']; intros; cbn [zm rows cols addr2] in *; smallz; vm_compute in *; try discriminate; auto|].
  split; [cbn; auto|]. split; [exact E|]. exists (fun i j => elt (K := Zring) (s_q ex_done) 2 i j). split.
  - intros i j Hi Hj. smallz; eexists; (split; [reflexivity|vm_compute; reflexivity]).
  - intros H. specialize (H 1%nat 0%nat ltac:(cbn; lia) ltac:(cbn; lia)). revert H. revert E. vm_compute. intros [= <-]. vm_compute. discriminate.
Qed.
Print Assumptions C70_in_place_refuted.
