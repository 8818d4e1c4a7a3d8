(** Proofs about the linear solvers. *)
From Coq Require Import ZArith List Lia Bool Arith.
From Verif Require Import Base Fir FirProofs Freqswap FreqswapProofs Conv ConvProofs Matvec MatvecProofs Solver.
Import ListNotations.
Local Open Scope nat_scope.

Section P.
Context {K : CRing} (conj : K -> K) (kdiv : K -> K -> option K).
Local Open Scope cr_scope.
Add Ring Kring : (r_th K).
Implicit Types m : mem K.
Notation buf := (list K).
(** The diagonal of the factor has no zeros. *)
Definition full_rank (N : nat) (d : buf) (ld : nat) : Prop := forall i, (i < N)%nat -> invertible (elt d ld i i).

(** ** Buffers *)
Lemma idx_mod ld i j : (i < ld)%nat -> ((i + j * ld) mod ld = i)%nat.
Proof. intros H. rewrite Nat.mod_add by lia. apply Nat.mod_small. exact H. Qed.
Lemma idx_div ld i j : (i < ld)%nat -> ((i + j * ld) / ld = j)%nat.
Proof. intros H. rewrite Nat.div_add by lia. rewrite Nat.div_small by exact H. reflexivity. Qed.
Lemma idx_lt ld M N i j : (i < M)%nat -> (j < N)%nat -> (i + j * ld <= (N - 1) * ld + M - 1)%nat.
Proof. intros Hi Hj. assert (j * ld <= (N - 1) * ld)%nat by (apply Nat.mul_le_mono_r; lia). lia. Qed.
Lemma idx_in M N i j : (i < M)%nat -> (j < N)%nat -> (i + j * M < M * N)%nat.
Proof. intros Hi Hj. assert ((j + 1) * M <= N * M)%nat by (apply Nat.mul_le_mono_r; lia). lia. Qed.
Lemma fits_lt (l : buf) ld M N i j : fits l ld M N = true -> (i < M)%nat -> (j < N)%nat -> (i + j * ld < length l)%nat.
Proof.
  unfold fits. rewrite !orb_true_iff, !Nat.eqb_eq, Nat.leb_le. intros H Hi Hj. pose proof (idx_lt ld M N i j Hi Hj). lia.
Qed.
Lemma update_length (l : buf) ld M N f : length (update l ld M N f) = length l.
Proof. unfold update. rewrite map_length, seq_length. reflexivity. Qed.
Lemma update_elt (l : buf) ld M N f i j : (i < ld)%nat -> (i + j * ld < length l)%nat ->
  elt (update l ld M N f) ld i j = if ((i <? M) && (j <? N))%nat then f i j else elt l ld i j.
Proof.
  intros Hi Hl. unfold elt at 1, update. erewrite nth_indep by (rewrite map_length, seq_length; exact Hl).
  rewrite (map_nth (fun p => if ((p mod ld <? M) && (p / ld <? N))%nat then f (p mod ld)%nat (p / ld)%nat else nth p l 0) (seq 0 (length l)) 0%nat).
  rewrite seq_nth by exact Hl. cbn [Nat.add]. rewrite idx_mod, idx_div by exact Hi. reflexivity.
Qed.
Lemma update_in (l : buf) ld M N f i j : (M <= ld)%nat -> fits l ld M N = true -> (i < M)%nat -> (j < N)%nat -> elt (update l ld M N f) ld i j = f i j.
Proof.
  intros Hl Hf Hi Hj. rewrite update_elt; [|lia|apply (fits_lt l ld M N i j Hf Hi Hj)].
  rewrite (proj2 (Nat.ltb_lt _ _) Hi), (proj2 (Nat.ltb_lt _ _) Hj). reflexivity.
Qed.
Lemma fits_same (l l' : buf) ld M N : length l' = length l -> fits l' ld M N = fits l ld M N.
Proof. unfold fits. intros ->. reflexivity. Qed.
Lemma fits_mat (l : buf) M N : length l = (M * N)%nat -> fits l M M N = true.
Proof.
  intros E. unfold fits. rewrite !orb_true_iff, !Nat.eqb_eq, Nat.leb_le, E. destruct N as [|N]; [lia|]. right. replace (S N - 1)%nat with N by lia. nia.
Qed.
Lemma fits_sub (l : buf) ld M N M' N' : (M' <= M)%nat -> (N' <= N)%nat -> fits l ld M N = true -> fits l ld M' N' = true.
Proof.
  unfold fits. rewrite !orb_true_iff, !Nat.eqb_eq, !Nat.leb_le. intros H1 H2 H.
  destruct M'; [lia|]. destruct N'; [lia|]. right. assert ((S N' - 1) * ld <= (N - 1) * ld)%nat by (apply Nat.mul_le_mono_r; lia). lia.
Qed.

(** ** Copies *)
Lemma copy_in_ok M N (v : block2) x m : M = rows v -> N = cols v -> holds2 m v x ->
  exists l, copy_in M N v m = Some l /\ length l = (M * N)%nat /\ forall i j, (i < M)%nat -> (j < N)%nat -> elt l M i j = x i j.
Proof.
  intros EM EN H. unfold copy_in.
  set (P := fun i (l : buf) => length l = (M * N)%nat /\ forall i' j, (i' < i)%nat -> (i' < M)%nat -> (j < N)%nat -> elt l M i' j = x i' j).
  destruct (loop_inv (fun i l => loop (fun j l => y <- mload m (addr2 v i j) ;; bput l (i + j * M)%nat y) 0 N l) P M 0 (repeat 0 (M * N)%nat)) as (l & E & L & Q).
  - split; [apply repeat_length|lia].
  - intros i l [_ Hi] [L Q].
    set (P' := fun j (l' : buf) => length l' = (M * N)%nat /\ forall i' j', (i' < M)%nat -> (j' < N)%nat -> ((i' < i)%nat \/ (i' = i /\ (j' < j)%nat)) -> elt l' M i' j' = x i' j').
    destruct (loop_inv (fun j l => y <- mload m (addr2 v i j) ;; bput l (i + j * M)%nat y) P' N 0 l) as (l' & E' & L' & Q').
    + split; [exact L|]. intros i' j' Hi' Hj' [?|[? ?]]; [apply Q; lia|lia].
    + intros j l' [_ Hj] [L' Q']. unfold mload. rewrite (H i j) by lia. cbn [bind].
      assert (B : (i + j * M < M * N)%nat). { apply idx_in; lia. }
      rewrite bput_some by lia. eexists. split; [reflexivity|]. split; [rewrite lset_length; exact L'|].
      intros i' j' Hi' Hj' C. unfold elt.
      assert (B' : (i' + j' * M < M * N)%nat). { apply idx_in; lia. }
      assert (G : nth_error (lset l' (i + j * M)%nat (x i j)) (i' + j' * M)%nat = Some (x i' j')).
      { rewrite lset_nth. destruct (Nat.eqb_spec (i' + j' * M) (i + j * M)) as [e|e].
        - assert (i' = i) by (rewrite <- (idx_mod M i' j'), <- (idx_mod M i j) by lia; congruence).
          assert (j' = j) by (rewrite <- (idx_div M i' j'), <- (idx_div M i j) by lia; congruence). subst i' j'. destruct (Nat.ltb_spec (i + j * M) (length l')); [reflexivity|lia].
        - rewrite (nth_error_nth' l' 0) by lia. f_equal. apply (Q' i' j' Hi' Hj'). destruct C as [?|[-> ?]]; [auto|]. right. split; [reflexivity|].
          destruct (Nat.eq_dec j' j) as [->|]; [congruence|lia]. }
      apply nth_error_nth. exact G.
    + exists l'. split; [exact E'|]. split; [exact L'|]. intros i' j' Hi' Hi'' Hj'. apply Q'; [assumption|assumption|]. destruct (Nat.eq_dec i' i); [right; lia|left; lia].
  - exists l. split; [exact E|]. split; [exact L|]. intros i j Hi Hj. apply Q; lia.
Qed.
Lemma copy_out_ok (l : buf) ld (x : block2) m : wf2 m x -> (forall i j, (i < rows x)%nat -> (j < cols x)%nat -> (i + j * ld < length l)%nat) ->
  exists m', copy_out l ld x m = Some m' /\ only2 x m m' /\ holds2 m' x (elt l ld).
Proof.
  intros W B. unfold copy_out.
  match goal with |- exists m', loop (fun i m => loop (fun j m => @?G i j m) _ _ m) _ _ _ = _ /\ _ /\ holds2 _ _ ?V => destruct (nest_up conj x m V G W) as (m' & E & O & H) end.
  - intros i j m1 Hi Hj O1 _. cbv beta. rewrite bget_nth by (apply B; assumption). reflexivity.
  - exists m'. split; [exact E|]. split; [apply only2_off; exact O|exact H].
Qed.

(** ** Matrices as functions *)
Lemma sum_trunc (f : nat -> K) n k : (k <= n)%nat -> (forall i, (k <= i < n)%nat -> f i = 0) -> sum f n = sum f k.
Proof.
  intros H Z. replace n with (k + (n - k))%nat by lia. rewrite sum_app. rewrite (sum_0 K (fun i => f (k + i)%nat)); [ring|]. intros i Hi. apply Z. lia.
Qed.
Lemma sum_delta (f : nat -> K) n i : (i < n)%nat -> sum (fun k => delta i k * f k) n = f i.
Proof.
  intros H. rewrite (sum_trunc _ n (S i)) by first [lia|intros k Hk; unfold delta; destruct (Nat.eqb_spec i k); [lia|ring]].
  cbn [sum]. rewrite (sum_0 K _ i); [unfold delta; rewrite Nat.eqb_refl; ring|]. intros k Hk. unfold delta. destruct (Nat.eqb_spec i k); [lia|ring].
Qed.
Lemma sum_delta_r (f : nat -> K) n i : (i < n)%nat -> sum (fun k => f k * delta k i) n = f i.
Proof.
  intros H. rewrite <- (sum_delta f n i H). apply sum_ext. intros k _. unfold delta. rewrite Nat.eqb_sym. ring.
Qed.
Lemma sum_mul_r (c : K) (f : nat -> K) n : sum (fun i => f i * c) n = sum f n * c.
Proof. rewrite (sum_ext K _ (fun i => c * f i)) by (intros; ring). rewrite sum_mul_l. ring. Qed.
Lemma mmul_assoc d e (X Y Z : nat -> nat -> K) i j : mmul d X (mmul e Y Z) i j = mmul e (mmul d X Y) Z i j.
Proof.
  unfold mmul. rewrite (sum_ext K _ (fun k => sum (fun l => X i k * Y k l * Z l j) e)).
  2: { intros k _. rewrite <- sum_mul_l. apply sum_ext. intros; ring. }
  rewrite sum_swap. apply sum_ext. intros l _. rewrite <- sum_mul_r. reflexivity.
Qed.
Lemma mmul_ext d (X X' Y Y' : nat -> nat -> K) i j : (forall k, (k < d)%nat -> X i k = X' i k) -> (forall k, (k < d)%nat -> Y k j = Y' k j) -> mmul d X Y i j = mmul d X' Y' i j.
Proof. intros HX HY. unfold mmul. apply sum_ext. intros k Hk. rewrite HX, HY by exact Hk. reflexivity. Qed.

(** ** Triangular systems *)
Hypothesis DV : div_ok kdiv.
Lemma fsub_ok T unit rhs n : (unit = false -> forall i, (i < n)%nat -> invertible (T i i)) ->
  exists xs, fsub kdiv T unit rhs n = Some xs /\ length xs = n /\
    forall i, (i < n)%nat -> sum (fun k => T i k * nth k xs 0) i + (if unit then 1 else T i i) * nth i xs 0 = rhs i.
Proof.
  intros Hd. unfold fsub.
  match goal with |- exists xs, loop ?F 0 n [] = _ /\ _ =>
    destruct (loop_inv F (fun j xs => length xs = j /\ forall i, (i < j)%nat -> sum (fun k => T i k * nth k xs 0) i + (if unit then 1 else T i i) * nth i xs 0 = rhs i) n 0 []) as (xs & E & L & H) end.
  - split; [reflexivity|lia].
  - intros j xs [_ Hj] [L H].
    assert (S1 : forall y i, (i <= j)%nat -> sum (fun k => T i k * nth k (xs ++ [y]) 0) i = sum (fun k => T i k * nth k xs 0) i).
    { intros y i Hi. apply sum_ext. intros k Hk. rewrite app_nth1 by lia. reflexivity. }
    assert (S2 : forall y, nth j (xs ++ [y]) 0 = y) by (intros y; rewrite app_nth2 by lia; replace (j - length xs)%nat with 0%nat by lia; reflexivity).
    assert (S3 : forall y, (if unit then 1 else T j j) * y = rhs j - sum (fun k => T j k * nth k xs 0) j ->
      length (xs ++ [y]) = (j + 1)%nat /\ forall i, (i < j + 1)%nat -> sum (fun k => T i k * nth k (xs ++ [y]) 0) i + (if unit then 1 else T i i) * nth i (xs ++ [y]) 0 = rhs i).
    { intros y Hy. split; [rewrite app_length; cbn; lia|]. intros i Hi. rewrite S1 by lia. destruct (Nat.eq_dec i j) as [->|].
      - rewrite S2, Hy. ring.
      - rewrite app_nth1 by lia. apply H. lia. }
    destruct unit.
    + cbn [bind]. eexists. split; [reflexivity|]. apply S3. ring.
    + cbn [bind]. destruct (Hd eq_refl j ltac:(lia)) as (u & Hu).
      destruct (kdiv (rhs j - sum (fun k => T j k * nth k xs 0) j) (T j j)) as [y|] eqn:Ey.
      * cbn [bind]. eexists. split; [reflexivity|]. apply S3. rewrite <- (div_exact _ DV _ _ _ Ey). ring.
      * exfalso. apply (div_total _ DV _ _ u Hu Ey).
  - exists xs. split; [exact E|]. split; [exact L|]. intros i Hi. apply H. lia.
Qed.
(** Lower- and upper-triangular matrices. *)
Definition low (T : nat -> nat -> K) (unit : bool) : nat -> nat -> K := fun i k => if (k <? i)%nat then T i k else if (i =? k)%nat then (if unit then 1 else T i i) else 0.
Definition upp (T : nat -> nat -> K) (unit : bool) : nat -> nat -> K := fun i k => if (i <? k)%nat then T i k else if (i =? k)%nat then (if unit then 1 else T i i) else 0.
Lemma fsub_low T unit rhs n : (unit = false -> forall i, (i < n)%nat -> invertible (T i i)) ->
  exists xs, fsub kdiv T unit rhs n = Some xs /\ length xs = n /\ forall i, (i < n)%nat -> sum (fun k => low T unit i k * nth k xs 0) n = rhs i.
Proof.
  intros Hd. destruct (fsub_ok T unit rhs n Hd) as (xs & E & L & H). exists xs. split; [exact E|]. split; [exact L|]. intros i Hi. rewrite <- (H i Hi).
  rewrite (sum_trunc _ n (S i)).
  - cbn [sum]. f_equal.
    + apply sum_ext. intros k Hk. unfold low. rewrite (proj2 (Nat.ltb_lt _ _) Hk). reflexivity.
    + unfold low. rewrite Nat.ltb_irrefl, Nat.eqb_refl. reflexivity.
  - lia.
  - intros k Hk. unfold low. destruct (Nat.ltb_spec k i); [lia|]. destruct (Nat.eqb_spec i k); [lia|]. ring.
Qed.
Lemma bsub_upp T unit rhs n : (unit = false -> forall i, (i < n)%nat -> invertible (T i i)) ->
  exists xs, bsub kdiv T unit rhs n = Some xs /\ length xs = n /\ forall i, (i < n)%nat -> sum (fun k => upp T unit i k * nth k xs 0) n = rhs i.
Proof.
  intros Hd. unfold bsub.
  destruct (fsub_low (fun i k => T (n - 1 - i)%nat (n - 1 - k)%nat) unit (fun i => rhs (n - 1 - i)%nat) n) as (xs & E & L & H).
  { intros U i Hi. apply Hd; [exact U|lia]. }
  rewrite E. cbn [bind]. exists (rev xs). split; [reflexivity|]. split; [rewrite rev_length; exact L|].
  intros i Hi. specialize (H (n - 1 - i)%nat ltac:(lia)). cbv beta in H. replace (n - 1 - (n - 1 - i))%nat with i in H by lia. rewrite <- H.
  rewrite sum_rev. apply sum_ext. intros k Hk. rewrite rev_nth by lia. rewrite L. replace (n - S (n - 1 - k))%nat with k by lia. f_equal.
  unfold upp, low. replace (n - 1 - (n - 1 - i))%nat with i by lia.
  destruct (Nat.ltb_spec i (n - 1 - k)), (Nat.ltb_spec k (n - 1 - i)); try lia; [reflexivity|].
  destruct (Nat.eqb_spec i (n - 1 - k)), (Nat.eqb_spec (n - 1 - i) k); try lia; reflexivity.
Qed.
(** The matrix a triangular solve works with. *)
Definition tri (upper : bool) (unit : bool) (T : nat -> nat -> K) : nat -> nat -> K := if upper then upp T unit else low T unit.
Lemma conj_0 : conj_ok conj -> conj 0 = 0.
Proof. intros C. pose proof (conj_add _ C 0 0) as Q. replace (0 + 0 : K) with (0 : K) in Q by ring. transitivity (conj 0 + conj 0 - conj 0); [ring|]. rewrite <- Q. ring. Qed.
Lemma conj_1 : conj_ok conj -> conj 1 = 1.
Proof. intros C. pose proof (conj_mul _ C (conj 1) 1) as Q. replace (conj 1 * 1) with (conj 1) in Q by ring. rewrite (conj_inv _ C) in Q. transitivity (1 * conj 1); [ring|symmetry; exact Q]. Qed.
Lemma conj_sum (f : nat -> K) n : conj_ok conj -> conj (sum f n) = sum (fun k => conj (f k)) n.
Proof. intros C. induction n as [|n IH]; cbn [sum]; [apply conj_0; exact C|]. rewrite (conj_add _ C), IH. reflexivity. Qed.
Lemma opm_tri t upper unit T i k : conj_ok conj -> tri (match t with TN => upper | _ => negb upper end) unit (opm conj t T) i k = opm conj t (tri upper unit T) i k.
Proof.
  intros C. unfold tri, opm, adj, upp, low. destruct t, upper; cbn [negb]; try reflexivity.
  - destruct (Nat.ltb_spec k i); [reflexivity|]. rewrite (Nat.eqb_sym k i). destruct (Nat.eqb_spec i k) as [->|]; reflexivity.
  - destruct (Nat.ltb_spec i k); [reflexivity|]. rewrite (Nat.eqb_sym k i). destruct (Nat.eqb_spec i k) as [->|]; reflexivity.
  - destruct (Nat.ltb_spec k i); [reflexivity|]. rewrite (Nat.eqb_sym k i). destruct (Nat.eqb_spec i k) as [->|]; [destruct unit; [symmetry; apply conj_1; exact C|reflexivity]|symmetry; apply conj_0; exact C].
  - destruct (Nat.ltb_spec i k); [reflexivity|]. rewrite (Nat.eqb_sym k i). destruct (Nat.eqb_spec i k) as [->|]; [destruct unit; [symmetry; apply conj_1; exact C|reflexivity]|symmetry; apply conj_0; exact C].
Qed.
Lemma conj_invertible a : conj_ok conj -> invertible a -> invertible (conj a).
Proof. intros C (u & Hu). exists (conj u). rewrite <- (conj_mul _ C), Hu. apply conj_1. exact C. Qed.

Lemma trsm_ok upper t unit M N alpha a lda b ldb : conj_ok conj ->
  (1 <= M <= lda)%nat -> (M <= ldb)%nat -> fits a lda M M = true -> fits b ldb M N = true ->
  (unit = false -> full_rank M a lda) ->
  exists b', trsm conj kdiv upper t unit M N alpha a lda b ldb = Some b' /\ length b' = length b /\
    (forall i j, (i < M)%nat -> (j < N)%nat -> sum (fun k => opm conj t (tri upper unit (elt a lda)) i k * elt b' ldb k j) M = alpha * elt b ldb i j) /\
    (forall i j, (i < ldb)%nat -> (i + j * ldb < length b)%nat -> ~ ((i < M)%nat /\ (j < N)%nat) -> elt b' ldb i j = elt b ldb i j).
Proof.
  intros C L1 L2 F1 F2 Hd. unfold trsm. rewrite !assert_true by (assumption || (apply Nat.leb_le; lia)). cbv zeta.
  set (T := opm conj t (elt a lda)). set (up := match t with TN => upper | _ => negb upper end).
  assert (HT : unit = false -> forall i, (i < M)%nat -> invertible (T i i)).
  { intros U i Hi. specialize (Hd U i Hi). unfold T, opm, adj. destruct t; try exact Hd. apply conj_invertible; assumption. }
  match goal with |- exists b', (cs <- loop ?F 0 N [] ;; _) = _ /\ _ =>
    destruct (loop_inv F (fun j cs => length cs = j /\ forall j' i, (j' < j)%nat -> (i < M)%nat -> sum (fun k => tri up unit T i k * nth k (nth j' cs []) 0) M = alpha * elt b ldb i j') N 0 []) as (cs & E & L & H) end.
  - split; [reflexivity|lia].
  - intros j cs [_ Hj] [L H].
    assert (X : exists xs, (if up then bsub kdiv else fsub kdiv) T unit (fun i => alpha * elt b ldb i j) M = Some xs /\ length xs = M /\ forall i, (i < M)%nat -> sum (fun k => tri up unit T i k * nth k xs 0) M = alpha * elt b ldb i j).
    { unfold tri. destruct up; [apply (bsub_upp T unit (fun i => alpha * elt b ldb i j) M HT)|apply (fsub_low T unit (fun i => alpha * elt b ldb i j) M HT)]. }
    destruct X as (xs & E & Lx & Hx). rewrite E. cbn [bind]. eexists. split; [reflexivity|]. split; [rewrite app_length; cbn; lia|].
    intros j' i Hj' Hi. destruct (Nat.eq_dec j' j) as [->|].
    + rewrite app_nth2 by lia. replace (j - length cs)%nat with 0%nat by lia. apply Hx. exact Hi.
    + rewrite app_nth1 by lia. apply H; lia.
  - rewrite E. cbn [bind]. eexists. split; [reflexivity|]. split; [apply update_length|]. split.
    + intros i j Hi Hj. rewrite <- (H j i ltac:(lia) Hi). apply sum_ext. intros k Hk. rewrite update_in by (assumption || lia). f_equal. symmetry. apply opm_tri. exact C.
    + intros i j Hi Hl Nn. rewrite update_elt by assumption. destruct (Nat.ltb_spec i M); [|reflexivity]. destruct (Nat.ltb_spec j N); [|reflexivity]. exfalso. apply Nn. auto.
Qed.
Lemma tri_rmat d ld i k : tri true false (elt d ld) i k = rmat d ld i k.
Proof.
  unfold tri, upp, rmat. destruct (Nat.ltb_spec i k), (Nat.eqb_spec i k), (Nat.leb_spec i k); try lia; try reflexivity. subst. reflexivity.
Qed.
Lemma tri_lmat d ld i k : tri false true (elt d ld) i k = lmat d ld i k.
Proof. reflexivity. Qed.
Lemma tri_gmat d ld i k : tri false false (elt d ld) i k = gmat d ld i k.
Proof.
  unfold tri, low, gmat. destruct (Nat.ltb_spec k i), (Nat.eqb_spec i k), (Nat.leb_spec k i); try lia; try reflexivity. subst. reflexivity.
Qed.

(** ** QR *)
Hypothesis CJ : conj_ok conj.
Lemma adj_mmul d X Y i j : adj conj (mmul d X Y) i j = mmul d (adj conj Y) (adj conj X) i j.
Proof. unfold adj, mmul. rewrite conj_sum by exact CJ. apply sum_ext. intros k _. rewrite (conj_mul _ CJ). ring. Qed.
Lemma adj_adj X i j : adj conj (adj conj X) i j = X i j.
Proof. unfold adj. apply (conj_inv _ CJ). Qed.
(** A^H Y = R^H (Q^H Y). *)
Lemma qr_adj M N A d tau Y i j : (N <= M)%nat -> is_qr conj M N A d tau -> (i < N)%nat ->
  mmul M (adj conj A) Y i j = mmul N (adj conj (rmat d M)) (mmul M (adj conj (qprod conj M d M tau N)) Y) i j.
Proof.
  intros NM (_ & _ & U1 & U2 & F) Hi. rewrite mmul_assoc. apply mmul_ext; [|reflexivity]. intros k Hk.
  rewrite <- adj_mmul. unfold adj. f_equal. apply F; assumption.
Qed.
(** Q^H A Z = R Z. *)
Lemma qr_mul M N A d tau Z i j : (N <= M)%nat -> is_qr conj M N A d tau -> (i < M)%nat ->
  mmul M (adj conj (qprod conj M d M tau N)) (mmul N A Z) i j = if (i <? N)%nat then mmul N (rmat d M) Z i j else 0.
Proof.
  intros NM (_ & _ & U1 & U2 & F) Hi. set (Q := qprod conj M d M tau N) in *.
  transitivity (mmul M (adj conj Q) (mmul N (mmul N Q (rmat d M)) Z) i j).
  { apply mmul_ext; [reflexivity|]. intros k Hk. apply mmul_ext; [|reflexivity]. intros l Hl. apply F; assumption. }
  transitivity (mmul N (delta (K := K)) (mmul N (rmat d M) Z) i j).
  { transitivity (mmul M (adj conj Q) (mmul N Q (mmul N (rmat d M) Z)) i j).
    { apply mmul_ext; [reflexivity|]. intros k Hk. symmetry. apply mmul_assoc. }
    rewrite mmul_assoc. apply mmul_ext; [|reflexivity]. intros k Hk. apply U1; lia. }
  destruct (Nat.ltb_spec i N) as [Hn|Hn].
  - unfold mmul at 1. apply (sum_delta (fun k => mmul N (rmat d M) Z k j) N i Hn).
  - unfold mmul at 1. apply sum_0. intros k Hk. unfold delta. destruct (Nat.eqb_spec i k); [lia|ring].
Qed.
Lemma qr_gram M N A d tau i k : (N <= M)%nat -> is_qr conj M N A d tau -> (i < N)%nat -> (k < N)%nat ->
  mmul M (adj conj A) A i k = mmul N (adj conj (rmat d M)) (rmat d M) i k.
Proof.
  intros NM F Hi Hk. rewrite (qr_adj M N A d tau A i k NM F Hi). apply mmul_ext; [reflexivity|]. intros l Hl.
  transitivity (mmul M (adj conj (qprod conj M d M tau N)) (mmul N A (delta (K := K))) l k).
  { apply mmul_ext; [reflexivity|]. intros r Hr. symmetry. unfold mmul. apply (sum_delta_r (fun c => A r c) N k Hk). }
  rewrite (qr_mul M N A d tau _ l k NM F) by lia. rewrite (proj2 (Nat.ltb_lt _ _) Hl). unfold mmul. apply (sum_delta_r (fun c => rmat d M l c) N k Hk).
Qed.

(** The R factor of an object and the matrix it was computed from. *)
Definition qr_of (q : qrd) (A : nat -> nat -> K) : Prop :=
  (1 <= q_cols q <= q_rows q)%nat /\ is_qr conj (q_rows q) (q_cols q) A (q_data q) (q_tau q).
Lemma qr_fits q A : qr_of q A -> fits (q_data q) (q_rows q) (q_rows q) (q_cols q) = true.
Proof. intros (_ & L & _). apply fits_mat. exact L. Qed.

Lemma opm_op tr R i k : tr <> mat_conj -> opm conj (flag_of tr) R i k = op_elem conj tr R i k.
Proof. destruct tr; try reflexivity. congruence. Qed.

Lemma rsol_ok tr q A (b x : block2) alpha B m : tr <> mat_conj -> qr_of q A -> full_rank (q_cols q) (q_data q) (q_rows q) ->
  rows b = q_cols q -> rows x = q_cols q -> cols x = cols b -> holds2 m b B -> wf2 m x ->
  exists m' X, qrd_rsol conj kdiv tr q b alpha x m = Some m' /\ only2 x m m' /\ holds2 m' x X /\
    forall i j, (i < q_cols q)%nat -> (j < cols b)%nat ->
      sum (fun k => op_elem conj tr (rmat (q_data q) (q_rows q)) i k * X k j) (q_cols q) = alpha * B i j.
Proof.
  intros Tr QF FR E1 E2 E3 HB W. pose proof (qr_fits q A QF) as FT. destruct QF as ([N1 N2] & _).
  unfold qrd_rsol. rewrite !assert_true by (apply Nat.eqb_eq; congruence).
  destruct (copy_in_ok (rows b) (cols b) b B m eq_refl eq_refl HB) as (l & El & Ll & Hl). rewrite El. cbn [bind].
  destruct (trsm_ok true (flag_of tr) false (rows b) (cols b) alpha (q_data q) (q_rows q) l (rows b) CJ) as (c & Ec & Lc & Hc & _); try lia.
  { apply (fits_sub _ _ (q_rows q) (q_cols q)); [lia|lia|exact FT]. } { apply fits_mat. exact Ll. } { intros _. rewrite E1. exact FR. }
  rewrite Ec. cbn [bind].
  destruct (copy_out_ok c (rows b) x m W) as (m' & E & O & H).
  { intros i j Hi Hj. rewrite Lc, Ll. apply idx_in; congruence || lia. }
  exists m', (elt c (rows b)). split; [exact E|]. split; [exact O|]. split; [exact H|].
  intros i j Hi Hj. rewrite <- (Hl i j) by lia. rewrite <- (Hc i j) by lia. rewrite E1. apply sum_ext. intros k Hk. f_equal.
  rewrite <- opm_op by exact Tr. unfold opm, adj. destruct (flag_of tr); rewrite tri_rmat; reflexivity.
Qed.
(** The R^H R x = b pair of solves. *)
Lemma cov_eq q A (X Y B : nat -> nat -> K) p : qr_of q A ->
  (forall i j, (i < q_cols q)%nat -> (j < p)%nat -> mmul (q_cols q) (adj conj (rmat (q_data q) (q_rows q))) Y i j = B i j) ->
  (forall i j, (i < q_cols q)%nat -> (j < p)%nat -> mmul (q_cols q) (rmat (q_data q) (q_rows q)) X i j = Y i j) ->
  forall i j, (i < q_cols q)%nat -> (j < p)%nat -> mmul (q_cols q) (mmul (q_rows q) (adj conj A) A) X i j = B i j.
Proof.
  intros ([N1 N2] & F) H1 H2 i j Hi Hj. rewrite <- (H1 i j Hi Hj).
  transitivity (mmul (q_cols q) (mmul (q_cols q) (adj conj (rmat (q_data q) (q_rows q))) (rmat (q_data q) (q_rows q))) X i j).
  { apply mmul_ext; [|reflexivity]. intros k Hk. apply (qr_gram _ _ A _ (q_tau q)); assumption. }
  rewrite <- mmul_assoc. apply mmul_ext; [reflexivity|]. intros k Hk. apply H2; assumption.
Qed.
Lemma opm_traits cplx R i k : (cplx = false -> forall u, conj u = u) -> opm conj (traits_trans cplx) R i k = adj conj R i k.
Proof. intros H. unfold traits_trans. destruct cplx; [reflexivity|]. cbn [opm]. unfold adj. rewrite H by reflexivity. reflexivity. Qed.
Lemma covsol_m_ok cplx q A (b x : block2) B m : (cplx = false -> forall u, conj u = u) -> qr_of q A -> full_rank (q_cols q) (q_data q) (q_rows q) ->
  rows b = q_cols q -> rows x = q_cols q -> cols x = cols b -> holds2 m b B -> wf2 m x ->
  exists m' X, qrd_covsol conj kdiv cplx q b x m = Some m' /\ only2 x m m' /\ holds2 m' x X /\
    forall i j, (i < q_cols q)%nat -> (j < cols b)%nat -> mmul (q_cols q) (mmul (q_rows q) (adj conj A) A) X i j = B i j.
Proof.
  intros RC QF FR E1 E2 E3 HB W. pose proof (qr_fits q A QF) as FT. pose proof QF as ([N1 N2] & _).
  unfold qrd_covsol. rewrite !assert_true by (apply Nat.eqb_eq; congruence).
  destruct (copy_in_ok (rows b) (cols b) b B m eq_refl eq_refl HB) as (l & El & Ll & Hl). rewrite El. cbn [bind].
  assert (FT' : fits (q_data q) (q_rows q) (rows b) (rows b) = true) by (apply (fits_sub _ _ (q_rows q) (q_cols q)); [lia|lia|exact FT]).
  destruct (trsm_ok true (traits_trans cplx) false (rows b) (cols b) 1 (q_data q) (q_rows q) l (rows b) CJ) as (c & Ec & Lc & Hc & _); try lia; try assumption.
  { apply fits_mat. exact Ll. } { intros _. rewrite E1. exact FR. }
  rewrite Ec. cbn [bind].
  destruct (trsm_ok true TN false (rows b) (cols b) 1 (q_data q) (q_rows q) c (rows b) CJ) as (c' & Ec' & Lc' & Hc' & _); try lia; try assumption.
  { apply fits_mat. congruence. } { intros _. rewrite E1. exact FR. }
  rewrite Ec'. cbn [bind].
  destruct (copy_out_ok c' (rows b) x m W) as (m' & E & O & H).
  { intros i j Hi Hj. rewrite Lc', Lc, Ll. apply idx_in; congruence || lia. }
  exists m', (elt c' (rows b)). split; [exact E|]. split; [exact O|]. split; [exact H|].
  apply (cov_eq q A _ (elt c (rows b)) B (cols b) QF).
  - intros i j Hi Hj. rewrite <- (Hl i j) by lia. transitivity (1 * elt l (rows b) i j); [|ring]. rewrite <- (Hc i j) by lia. rewrite <- E1. apply sum_ext. intros k Hk. f_equal.
    rewrite opm_traits by exact RC. unfold adj. rewrite tri_rmat. reflexivity.
  - intros i j Hi Hj. transitivity (1 * elt c (rows b) i j); [|ring]. rewrite <- (Hc' i j) by lia. rewrite <- E1. apply sum_ext. intros k Hk. f_equal.
    cbn [opm]. rewrite tri_rmat. reflexivity.
Qed.
(** xORMQR / xUNMQR. *)
Definition flag_ok (cplx : bool) (t : tflag) : bool := match t with TN => true | TT => negb cplx | TC => cplx end.
Definition qop (t : tflag) (Q : nat -> nat -> K) : nat -> nat -> K := match t with TN => Q | _ => adj conj Q end.
Lemma mqr_ok (cplx left : bool) t (M N k : nat) a (lda : nat) tau c (ldc : nat) : flag_ok cplx t = true ->
  let d := if left then M else N in
  (k <= d <= lda)%nat -> (1 <= d)%nat -> (1 <= M <= ldc)%nat -> fits a lda d k = true -> fits c ldc M N = true -> (k <= length tau)%nat ->
  exists c', mqr conj cplx left t M N k a lda tau c ldc = Some c' /\ length c' = length c /\
    (forall i j, (i < M)%nat -> (j < N)%nat -> elt c' ldc i j =
       if left then mmul M (qop t (qprod conj d a lda tau k)) (elt c ldc) i j else mmul N (elt c ldc) (qop t (qprod conj d a lda tau k)) i j).
Proof.
  intros Ft d H1 H1' H2 F1 F2 Lt. unfold mqr. fold d. cbv zeta. rewrite !assert_true by (assumption || (apply Nat.leb_le; lia)).
  eexists. split; [reflexivity|]. split; [apply update_length|]. intros i j Hi Hj. rewrite update_in by (assumption || lia). reflexivity.
Qed.
Lemma qop_traits cplx Q : qop (traits_trans cplx) Q = adj conj Q.
Proof. destruct cplx; reflexivity. Qed.
Lemma lsqsol_ok cplx q A (b x : block2) B m : qr_of q A -> full_rank (q_cols q) (q_data q) (q_rows q) ->
  rows b = q_rows q -> rows x = q_cols q -> cols x = cols b -> holds2 m b B -> wf2 m x ->
  exists m' X, qrd_lsqsol conj kdiv cplx q b x m = Some m' /\ only2 x m m' /\ holds2 m' x X /\
    forall i j, (i < q_cols q)%nat -> (j < cols b)%nat ->
      mmul (q_rows q) (adj conj A) (mmul (q_cols q) A X) i j = mmul (q_rows q) (adj conj A) B i j.
Proof.
  intros QF FR E1 E2 E3 HB W. pose proof (qr_fits q A QF) as FT. pose proof QF as ([N1 N2] & QR). pose proof QR as (_ & Lt & _).
  unfold qrd_lsqsol. rewrite !assert_true by (apply Nat.eqb_eq; congruence).
  destruct (copy_in_ok (q_rows q) (cols b) b B m (eq_sym E1) eq_refl HB) as (l & El & Ll & Hl). rewrite El. cbn [bind].
  assert (FC : fits l (q_rows q) (q_rows q) (cols b) = true) by (apply fits_mat; exact Ll).
  destruct (mqr_ok cplx true (traits_trans cplx) (q_rows q) (cols b) (q_cols q) (q_data q) (q_rows q) (q_tau q) l (q_rows q)) as (c & Ec & Lc & Hc); try lia; try assumption.
  { destruct cplx; reflexivity. }
  rewrite Ec. cbn [bind].
  destruct (trsm_ok true TN false (q_cols q) (cols b) 1 (q_data q) (q_rows q) c (q_rows q) CJ) as (c' & Ec' & Lc' & Hc' & _); try lia.
  { apply (fits_sub _ _ (q_rows q) (q_cols q)); [lia|lia|exact FT]. }
  { apply (fits_sub _ _ (q_rows q) (cols b)); [lia|lia|]. rewrite (fits_same l) by exact Lc. exact FC. }
  { intros _. exact FR. }
  rewrite Ec'. cbn [bind].
  destruct (copy_out_ok c' (q_rows q) x m W) as (m' & E & O & H).
  { intros i j Hi Hj. rewrite Lc', Lc, Ll. apply idx_in; lia. }
  exists m', (elt c' (q_rows q)). split; [exact E|]. split; [exact O|]. split; [exact H|].
  intros i j Hi Hj. rewrite !(qr_adj _ _ A _ _ _ i j N2 QR Hi). apply mmul_ext; [reflexivity|]. intros k Hk.
  rewrite (qr_mul _ _ A _ _ _ k j N2 QR) by lia. rewrite (proj2 (Nat.ltb_lt _ _) Hk).
  transitivity (elt c (q_rows q) k j).
  - transitivity (1 * elt c (q_rows q) k j); [|ring]. rewrite <- (Hc' k j Hk Hj). apply sum_ext. intros r Hr. f_equal. cbn [opm]. rewrite tri_rmat. reflexivity.
  - rewrite (Hc k j) by lia. rewrite qop_traits. apply mmul_ext; [reflexivity|]. intros r Hr. apply Hl; assumption.
Qed.
Lemma prodq_ok cplx tr lside q A (b x : block2) B m :
  let N := q_cols q in let M := q_rows q in let Q := qprod conj M (q_data q) M (q_tau q) N in
  (cplx = false -> forall u, conj u = u) -> tr <> mat_conj -> flag_ok cplx (flag_of tr) = true -> q_store q <> nosaveq ->
  qr_of q A -> (q_store q = saveq1 -> M = N \/ lside = is_trans tr) ->
  let w := match q_store q with saveq1 => N | _ => M end in
  (if lside then rows b = (if is_trans tr then M else w) /\ rows x = (if is_trans tr then w else M) /\ cols x = cols b
   else cols b = (if is_trans tr then w else M) /\ cols x = (if is_trans tr then M else w) /\ rows x = rows b /\ (1 <= rows b)%nat) ->
  holds2 m b B -> wf2 m x ->
  exists m', qrd_prodq conj cplx tr lside q b x m = Some m' /\ only2 x m m' /\
    holds2 m' x (fun i j => if lside then sum (fun k => op_elem conj tr Q i k * B k j) (rows b) else sum (fun k => B i k * op_elem conj tr Q k j) (cols b)).
Proof.
  intros N M Q RC Tr Fl St QF Sq w Sz HB W. pose proof (qr_fits q A QF) as FT. pose proof QF as ([N1 N2] & QR). pose proof QR as (_ & Lt & _).
  fold N M in N1, N2, FT, Lt.
  unfold qrd_prodq. rewrite assert_true by (destruct (q_store q); congruence). cbv zeta. fold M N. fold w.
  rewrite assert_true.
  2: { destruct lside; destruct (is_trans tr); rewrite !andb_true_iff, !Nat.eqb_eq; intuition congruence. }
  assert (Wd : (if lside then rows b else cols b) = M).
  { unfold w in Sz. destruct (q_store q) eqn:Es; [congruence| |].
    - destruct (Sq eq_refl) as [e|e]; destruct lside, (is_trans tr); intuition congruence.
    - destruct lside, (is_trans tr); intuition congruence. }
  destruct (copy_in_ok (rows b) (cols b) b B m eq_refl eq_refl HB) as (l & El & Ll & Hl). rewrite El. cbn [bind].
  destruct (mqr_ok cplx lside (flag_of tr) (rows b) (cols b) N (q_data q) M (q_tau q) l (rows b) Fl) as (c & Ec & Lc & Hc).
  { rewrite Wd. lia. } { rewrite Wd. lia. }
  { destruct lside; [lia|]. destruct Sz as (_ & _ & _ & ?). lia. }
  { rewrite Wd. exact FT. } { apply fits_mat. exact Ll. } { lia. }
  rewrite Ec. cbn [bind]. rewrite Wd in Hc. fold Q in Hc.
  assert (Bx : (rows x <= rows b /\ cols x <= cols b)%nat).
  { unfold w in Sz. destruct lside.
    - destruct Sz as (S1 & S2 & S3). split; [|lia]. rewrite S2, Wd. destruct (q_store q), (is_trans tr); lia.
    - destruct Sz as (S1 & S2 & S3 & _). split; [lia|]. rewrite S2, Wd. destruct (q_store q), (is_trans tr); lia. }
  destruct (copy_out_ok c (rows b) x m W) as (m' & E & O & H).
  { intros i j Hi Hj. rewrite Lc, Ll. apply idx_in; lia. }
  exists m'. split; [exact E|]. split; [exact O|]. intros i j Hi Hj. rewrite (H i j Hi Hj). f_equal. rewrite (Hc i j) by lia.
  assert (Qe : forall r s, qop (flag_of tr) Q r s = op_elem conj tr Q r s).
  { intros r s. destruct tr; cbn [flag_of qop op_elem]; try reflexivity; [|congruence]. unfold adj. apply RC. cbn in Fl. destruct cplx; [discriminate|reflexivity]. }
  destruct lside; unfold mmul; apply sum_ext; intros k Hk; rewrite Qe, Hl by lia; reflexivity.
Qed.

(** ** LU *)
Fixpoint perm (p : list nat) (n r : nat) : nat := match n with 0 => r | S k => perm p k (swap k (nth k p 0%nat) r) end.
Fixpoint iperm (p : list nat) (n r : nat) : nat := match n with 0 => r | S k => swap k (nth k p 0%nat) (iperm p k r) end.
Lemma swap_swap i p r : swap i p (swap i p r) = r.
Proof.
  unfold swap. destruct (Nat.eqb_spec r i) as [->|n1].
  - destruct (Nat.eqb_spec p i); [assumption|]. rewrite Nat.eqb_refl. reflexivity.
  - destruct (Nat.eqb_spec r p) as [->|n2].
    + rewrite Nat.eqb_refl. reflexivity.
    + rewrite (proj2 (Nat.eqb_neq _ _) n1), (proj2 (Nat.eqb_neq _ _) n2). reflexivity.
Qed.
Lemma swap_lt i p r n : (i < n)%nat -> (p < n)%nat -> (r < n)%nat -> (swap i p r < n)%nat.
Proof. unfold swap. intros. destruct (r =? i)%nat; [assumption|]. destruct (r =? p)%nat; assumption. Qed.
Lemma swaps_perm p n (f : nat -> nat -> K) r : swaps p n f r = f (perm p n r).
Proof. revert r. induction n as [|n IH]; intros r; cbn [swaps perm]; [reflexivity|]. rewrite IH. reflexivity. Qed.
Lemma swaps_back_perm p n : forall (f : nat -> nat -> K) r, swaps_back p n f r = f (iperm p n r).
Proof. induction n as [|n IH]; intros f r; cbn [swaps_back iperm]; [reflexivity|]. rewrite IH. reflexivity. Qed.
Lemma perm_iperm p n r : perm p n (iperm p n r) = r.
Proof. revert r. induction n as [|n IH]; intros r; cbn [perm iperm]; [reflexivity|]. rewrite swap_swap. apply IH. Qed.
Lemma iperm_perm p n r : iperm p n (perm p n r) = r.
Proof. revert r. induction n as [|n IH]; intros r; cbn [perm iperm]; [reflexivity|]. rewrite IH. apply swap_swap. Qed.
Lemma perm_lt p N : (forall i, (i < N)%nat -> (nth i p 0 < N)%nat) -> forall n r, (n <= N)%nat -> (r < N)%nat -> (perm p n r < N)%nat /\ (iperm p n r < N)%nat.
Proof.
  intros H. induction n as [|n IH]; intros r Hn Hr; cbn [perm iperm]; [auto|]. split.
  - apply IH; [lia|]. apply swap_lt; [lia|apply H; lia|exact Hr].
  - apply swap_lt; [lia|apply H; lia|]. apply IH; lia.
Qed.
Lemma sum_swapped i p (f : nat -> K) n : (i < n)%nat -> (p < n)%nat -> sum (fun k => f (swap i p k)) n = sum f n.
Proof.
  intros Hi Hp. transitivity (sum (fun k => sum (fun r => delta (swap i p k) r * f r) n) n).
  { apply sum_ext. intros k Hk. symmetry. apply sum_delta. apply swap_lt; assumption. }
  rewrite sum_swap. apply sum_ext. intros r Hr. transitivity (sum (fun k => delta (swap i p r) k * f r) n).
  - apply sum_ext. intros k _. f_equal. unfold delta. destruct (Nat.eqb_spec (swap i p k) r) as [e|e], (Nat.eqb_spec (swap i p r) k) as [e'|e']; try reflexivity.
    + exfalso. apply e'. rewrite <- e. apply swap_swap.
    + exfalso. apply e. rewrite <- e'. apply swap_swap.
  - apply (sum_delta (fun _ => f r)). apply swap_lt; assumption.
Qed.
Lemma sum_perm p N : (forall i, (i < N)%nat -> (nth i p 0 < N)%nat) -> forall n (f : nat -> K), (n <= N)%nat -> sum (fun k => f (perm p n k)) N = sum f N.
Proof.
  intros H. induction n as [|n IH]; intros f Hn; cbn [perm]; [reflexivity|].
  rewrite (sum_swapped n (nth n p 0%nat) (fun k => f (perm p n k))) by (try lia; apply H; lia). apply IH. lia.
Qed.
Lemma getrs_ok t n nrhs A d piv b : is_lu n A d piv -> full_rank n d n -> (1 <= n)%nat -> length b = (n * nrhs)%nat ->
  exists b', getrs conj kdiv t n nrhs d n piv b n = Some b' /\ length b' = length b /\
    forall i j, (i < n)%nat -> (j < nrhs)%nat -> sum (fun k => opm conj t A i k * elt b' n k j) n = elt b n i j.
Proof.
  intros (Ld & Lp & Pp & F) FR N1 Lb. assert (FA : fits d n n n = true) by (apply fits_mat; exact Ld).
  assert (FB : fits b n n nrhs = true) by (apply fits_mat; exact Lb).
  assert (FU : forall u, (u = true \/ u = false) -> (u = false -> full_rank n d n)) by auto.
  unfold getrs. rewrite !assert_true; try assumption; try (apply Nat.leb_le; lia); try (apply Nat.eqb_eq; exact Lp).
  2: { apply forallb_forall. intros q Hq. apply Nat.ltb_lt. apply (In_nth _ _ 0%nat) in Hq. destruct Hq as (i & Hi & <-). apply Pp. lia. }
  assert (TR : forall t, (t = TT \/ t = TC) -> exists b', (b0 <- trsm conj kdiv true t false n nrhs 1 d n b n ;; b1 <- trsm conj kdiv false t true n nrhs 1 d n b0 n ;; Some (update b1 n n nrhs (swaps_back piv n (elt b1 n)))) = Some b' /\ length b' = length b /\
     forall i j, (i < n)%nat -> (j < nrhs)%nat -> sum (fun k => opm conj t A i k * elt b' n k j) n = elt b n i j).
  { clear t. intros t Ht.
    destruct (trsm_ok true t false n nrhs 1 d n b n CJ) as (b0 & E0 & L0 & H0 & _); try lia; try assumption; auto.
    rewrite E0. cbn [bind].
    destruct (trsm_ok false t true n nrhs 1 d n b0 n CJ) as (b1 & E1 & L1 & H1 & _); try lia; try assumption. { rewrite (fits_same b) by exact L0. exact FB. }
    rewrite E1. cbn [bind]. eexists. split; [reflexivity|]. split; [rewrite update_length; congruence|].
    intros i j Hi Hj.
    set (g := fun z => match t with TC => conj z | _ => z end).
    assert (Ga : forall f k, g (sum f k) = sum (fun r => g (f r)) k) by (intros f k; unfold g; destruct t; try reflexivity; apply conj_sum; exact CJ).
    assert (Gm : forall u v, g (u * v) = g u * g v) by (intros u v; unfold g; destruct t; try reflexivity; apply (conj_mul _ CJ)).
    assert (Go : forall X r s, opm conj t X r s = g (X s r)) by (intros X r s; destruct Ht as [-> | ->]; reflexivity).
    transitivity (sum (fun k => g (A k i) * elt b1 n (iperm piv n k) j) n).
    { apply sum_ext. intros k Hk. rewrite Go. f_equal. rewrite update_in; [|lia|rewrite (fits_same b) by congruence; exact FB|assumption|assumption]. rewrite swaps_back_perm. reflexivity. }
    rewrite <- (sum_perm piv n Pp n (fun k => g (A k i) * elt b1 n (iperm piv n k) j) ltac:(lia)).
    transitivity (sum (fun k => sum (fun l => g (rmat d n l i) * (g (lmat d n k l) * elt b1 n k j)) n) n).
    { apply sum_ext. intros k Hk. rewrite iperm_perm. rewrite <- (swaps_perm piv n A k). rewrite (F k i Hk Hi), Ga, <- sum_mul_r. apply sum_ext. intros l Hl. rewrite Gm. ring. }
    rewrite sum_swap. transitivity (sum (fun l => g (rmat d n l i) * elt b0 n l j) n).
    { apply sum_ext. intros l Hl. rewrite sum_mul_l. f_equal. transitivity (1 * elt b0 n l j); [|ring]. rewrite <- (H1 l j Hl Hj). apply sum_ext. intros k Hk. rewrite Go, tri_lmat. reflexivity. }
    transitivity (1 * elt b n i j); [|ring]. rewrite <- (H0 i j Hi Hj). apply sum_ext. intros l Hl. rewrite Go, tri_rmat. reflexivity. }
  destruct t; [|apply (TR TT); auto|apply (TR TC); auto]. cbv zeta.
  set (bs := update b n n nrhs (swaps piv n (elt b n))).
  assert (Ls : length bs = length b) by (apply update_length).
  destruct (trsm_ok false TN true n nrhs 1 d n bs n CJ) as (b0 & E0 & L0 & H0 & _); try lia; try assumption. { rewrite (fits_same b) by exact Ls. exact FB. }
  rewrite E0. cbn [bind].
  destruct (trsm_ok true TN false n nrhs 1 d n b0 n CJ) as (b1 & E1 & L1 & H1 & _); try lia; try assumption; auto. { rewrite (fits_same b) by congruence. exact FB. }
  exists b1. split; [exact E1|]. split; [congruence|]. intros i j Hi Hj. cbn [opm].
  destruct (perm_lt piv n Pp n i ltac:(lia) Hi) as [_ Hr]. set (r := iperm piv n i) in *.
  assert (Er : perm piv n r = i) by apply perm_iperm.
  transitivity (sum (fun k => swaps piv n A r k * elt b1 n k j) n).
  { apply sum_ext. intros k Hk. rewrite swaps_perm, Er. reflexivity. }
  transitivity (sum (fun k => sum (fun l => lmat d n r l * (rmat d n l k * elt b1 n k j)) n) n).
  { apply sum_ext. intros k Hk. rewrite (F r k Hr Hk), <- sum_mul_r. apply sum_ext. intros l Hl. ring. }
  rewrite sum_swap. transitivity (sum (fun l => lmat d n r l * elt b0 n l j) n).
  { apply sum_ext. intros l Hl. rewrite sum_mul_l. f_equal. transitivity (1 * elt b0 n l j); [|ring]. rewrite <- (H1 l j Hl Hj). apply sum_ext. intros k Hk. cbn [opm]. rewrite tri_rmat. reflexivity. }
  transitivity (1 * elt bs n r j).
  { rewrite <- (H0 r j Hr Hj). apply sum_ext. intros l Hl. cbn [opm]. rewrite tri_lmat. reflexivity. }
  unfold bs. rewrite update_in by (assumption || lia). rewrite swaps_perm, Er. ring.
Qed.
Lemma lud_solve_ok cplx tr l A (b x : block2) B m : tr <> mat_conj -> (tr = mat_herm -> cplx = true) ->
  (1 <= l_len l)%nat -> is_lu (l_len l) A (l_data l) (l_piv l) -> full_rank (l_len l) (l_data l) (l_len l) ->
  rows b = l_len l -> rows x = rows b -> cols x = cols b -> holds2 m b B -> wf2 m x ->
  exists m' X, lud_solve conj kdiv cplx tr l b x m = Some m' /\ only2 x m m' /\ holds2 m' x X /\
    forall i j, (i < l_len l)%nat -> (j < cols b)%nat -> sum (fun k => op_elem conj tr A i k * X k j) (l_len l) = B i j.
Proof.
  intros Tr Th N1 F FR E1 E2 E3 HB W. unfold lud_solve. rewrite !assert_true by (rewrite ?andb_true_iff, ?Nat.eqb_eq; try split; congruence).
  destruct (copy_in_ok (rows b) (cols b) b B m eq_refl eq_refl HB) as (c & Ec & Lc & Hc).
  assert (G : exists t, match tr with mat_ntrans => Some TN | mat_trans => Some TT | mat_herm => if cplx then Some TC else None | mat_conj => None end = Some t /\ forall i k, opm conj t A i k = op_elem conj tr A i k).
  { destruct tr; [exists TN|exists TT|exists TC|congruence]; (split; [try reflexivity; rewrite Th by reflexivity; reflexivity|reflexivity]). }
  destruct G as (t & Et & Ot). rewrite Et. cbn [bind]. rewrite Ec. cbn [bind]. rewrite E1 in *.
  destruct (getrs_ok t (l_len l) (cols b) A (l_data l) (l_piv l) c F FR N1 Lc) as (c' & Ec' & Lc' & Hc'). rewrite Ec'. cbn [bind].
  destruct (copy_out_ok c' (l_len l) x m W) as (m' & E & O & H). { intros i j Hi Hj. rewrite Lc', Lc. apply idx_in; lia. }
  exists m', (elt c' (l_len l)). split; [exact E|]. split; [exact O|]. split; [exact H|].
  intros i j Hi Hj. rewrite <- (Hc i j Hi Hj), <- (Hc' i j Hi Hj). apply sum_ext. intros k Hk. rewrite Ot. reflexivity.
Qed.
(** ** Cholesky *)
Lemma chold_solve_ok c A (b x : block2) B m : (1 <= c_len c)%nat -> is_chol conj (c_upper c) (c_len c) A (c_data c) ->
  (forall i j, (i < c_len c)%nat -> (j < c_len c)%nat -> A i j = conj (A j i)) -> full_rank (c_len c) (c_data c) (c_len c) ->
  rows b = c_len c -> rows x = rows b -> cols x = cols b -> holds2 m b B -> wf2 m x ->
  exists m' X, chold_solve conj kdiv c b x m = Some m' /\ only2 x m m' /\ holds2 m' x X /\
    forall i j, (i < c_len c)%nat -> (j < cols b)%nat -> sum (fun k => A i k * X k j) (c_len c) = B i j.
Proof.
  intros N1 (Ld & F) Hm FR E1 E2 E3 HB W. unfold chold_solve. rewrite !assert_true by (rewrite ?andb_true_iff, ?Nat.eqb_eq; try split; congruence).
  destruct (copy_in_ok (rows b) (cols b) b B m eq_refl eq_refl HB) as (l & El & Ll & Hl). rewrite El. cbn [bind]. rewrite E1 in *.
  set (n := c_len c) in *. set (d := c_data c) in *. assert (FA : fits d n n n = true) by (apply fits_mat; exact Ld). assert (FB : fits l n n (cols b) = true) by (apply fits_mat; exact Ll).
  assert (G : exists c2, potrs conj kdiv (c_upper c) n (cols b) d n l n = Some c2 /\ length c2 = length l /\
     forall i j, (i < n)%nat -> (j < cols b)%nat -> sum (fun k => A i k * elt c2 n k j) n = elt l n i j).
  { unfold potrs. destruct (c_upper c).
    - destruct (trsm_ok true TC false n (cols b) 1 d n l n CJ) as (c1 & Ec1 & L1 & H1 & _); try lia; try assumption; auto. rewrite Ec1. cbn [bind].
      destruct (trsm_ok true TN false n (cols b) 1 d n c1 n CJ) as (c2 & Ec2 & L2 & H2 & _); try lia; try assumption; auto. { rewrite (fits_same l) by exact L1. exact FB. }
      exists c2. split; [exact Ec2|]. split; [congruence|]. intros i j Hi Hj.
      assert (FA' : forall k, (k < n)%nat -> A i k = sum (fun r => conj (rmat d n r i) * rmat d n r k) n).
      { intros k Hk. destruct (le_lt_dec i k) as [Q|Q]; [apply F; assumption|]. rewrite Hm by assumption. rewrite (F k i Hk Hi ltac:(lia)), conj_sum by exact CJ. apply sum_ext. intros r _. rewrite (conj_mul _ CJ), (conj_inv _ CJ). ring. }
      transitivity (sum (fun k => sum (fun r => conj (rmat d n r i) * (rmat d n r k * elt c2 n k j)) n) n).
      { apply sum_ext. intros k Hk. rewrite (FA' k Hk), <- sum_mul_r. apply sum_ext. intros r _. ring. }
      rewrite sum_swap. transitivity (sum (fun r => conj (rmat d n r i) * elt c1 n r j) n).
      { apply sum_ext. intros r Hr. rewrite sum_mul_l. f_equal. transitivity (1 * elt c1 n r j); [|ring]. rewrite <- (H2 r j Hr Hj). apply sum_ext. intros k Hk. cbn [opm]. rewrite tri_rmat. reflexivity. }
      transitivity (1 * elt l n i j); [|ring]. rewrite <- (H1 i j Hi Hj). apply sum_ext. intros r Hr. cbn [opm]. unfold adj. rewrite tri_rmat. reflexivity.
    - destruct (trsm_ok false TN false n (cols b) 1 d n l n CJ) as (c1 & Ec1 & L1 & H1 & _); try lia; try assumption; auto. rewrite Ec1. cbn [bind].
      destruct (trsm_ok false TC false n (cols b) 1 d n c1 n CJ) as (c2 & Ec2 & L2 & H2 & _); try lia; try assumption; auto. { rewrite (fits_same l) by exact L1. exact FB. }
      exists c2. split; [exact Ec2|]. split; [congruence|]. intros i j Hi Hj.
      assert (FA' : forall k, (k < n)%nat -> A i k = sum (fun r => gmat d n i r * conj (gmat d n k r)) n).
      { intros k Hk. destruct (le_lt_dec k i) as [Q|Q]; [apply F; assumption|]. rewrite Hm by assumption. rewrite (F k i Hk Hi ltac:(lia)), conj_sum by exact CJ. apply sum_ext. intros r _. rewrite (conj_mul _ CJ), (conj_inv _ CJ). ring. }
      transitivity (sum (fun k => sum (fun r => gmat d n i r * (conj (gmat d n k r) * elt c2 n k j)) n) n).
      { apply sum_ext. intros k Hk. rewrite (FA' k Hk), <- sum_mul_r. apply sum_ext. intros r _. ring. }
      rewrite sum_swap. transitivity (sum (fun r => gmat d n i r * elt c1 n r j) n).
      { apply sum_ext. intros r Hr. rewrite sum_mul_l. f_equal. transitivity (1 * elt c1 n r j); [|ring]. rewrite <- (H2 r j Hr Hj). apply sum_ext. intros k Hk. cbn [opm]. unfold adj. rewrite tri_gmat. reflexivity. }
      transitivity (1 * elt l n i j); [|ring]. rewrite <- (H1 i j Hi Hj). apply sum_ext. intros r Hr. cbn [opm]. rewrite tri_gmat. reflexivity. }
  destruct G as (c2 & Ec2 & L2 & H2). rewrite Ec2. cbn [bind].
  destruct (copy_out_ok c2 n x m W) as (m' & E & O & H). { intros i j Hi Hj. rewrite L2, Ll. apply idx_in; lia. }
  exists m', (elt c2 n). split; [exact E|]. split; [exact O|]. split; [exact H|]. intros i j Hi Hj. rewrite <- (Hl i j Hi Hj). apply H2; assumption.
Qed.

(** ** Rank *)
Lemma sum_single (f : nat -> K) n i : (i < n)%nat -> (forall k, (k < n)%nat -> k <> i -> f k = 0) -> sum f n = f i.
Proof.
  intros Hi H. rewrite <- (sum_delta f n i Hi). apply sum_ext. intros k Hk. unfold delta. destruct (Nat.eqb_spec i k) as [->|Q]; [ring|]. rewrite (H k Hk) by congruence. ring.
Qed.
Lemma upper_invertible N (L R : nat -> nat -> K) : (forall i j, (j < i)%nat -> R i j = 0) ->
  (forall i j, (i < N)%nat -> (j < N)%nat -> mmul N L R i j = delta i j) -> forall j, (j < N)%nat -> invertible (R j j).
Proof.
  intros U H. enough (G : forall j, (j < N)%nat -> R j j * L j j = 1 /\ forall i, (j < i)%nat -> (i < N)%nat -> L i j = 0).
  { intros j Hj. exists (L j j). apply G. exact Hj. }
  induction j as [j IH] using lt_wf_ind. intros Hj.
  assert (S1 : forall i, (j <= i)%nat -> (i < N)%nat -> L i j * R j j = delta i j).
  { intros i Ji Hi. rewrite <- (H i j Hi Hj). unfold mmul. symmetry. apply (sum_single (fun k => L i k * R k j)); [exact Hj|]. intros k Hk Nk.
    destruct (Nat.lt_total k j) as [Q|[Q|Q]]; [|congruence|rewrite (U k j Q); ring]. rewrite (proj2 (IH k Q Hk) i) by lia. ring. }
  assert (S2 : R j j * L j j = 1). { transitivity (L j j * R j j); [ring|]. rewrite (S1 j (le_n _) Hj). unfold delta. rewrite Nat.eqb_refl. reflexivity. }
  split; [exact S2|]. intros i Ji Hi. transitivity (L i j * R j j * L j j); [transitivity (L i j * (R j j * L j j)); [rewrite S2; ring|ring]|].
  rewrite (S1 i) by lia. unfold delta. rewrite (proj2 (Nat.eqb_neq i j)) by lia. ring.
Qed.
Lemma rmat_diag (d : buf) ld i : rmat d ld i i = elt d ld i i.
Proof. unfold rmat. rewrite Nat.leb_refl. reflexivity. Qed.
Lemma rmat_up (d : buf) ld i j : (j < i)%nat -> rmat d ld i j = 0.
Proof. intros H. unfold rmat. destruct (Nat.leb_spec i j); [lia|reflexivity]. Qed.
Lemma rank_qr M N A d tau : is_qr conj M N A d tau -> full_column_rank M N A -> full_rank N d M.
Proof.
  intros (_ & _ & _ & _ & F) (L & HL) i Hi. rewrite <- rmat_diag.
  apply (upper_invertible N (mmul M L (qprod conj M d M tau N)) (rmat d M)); [apply rmat_up| |exact Hi].
  intros a b Ha Hb. rewrite <- mmul_assoc, <- (HL a b Ha Hb). apply mmul_ext; [reflexivity|]. intros k Hk. symmetry. apply F; assumption.
Qed.
Lemma rank_lu n A d p : is_lu n A d p -> full_column_rank n n A -> full_rank n d n.
Proof.
  intros (_ & _ & Pp & F) (L & HL) i Hi. rewrite <- rmat_diag.
  apply (upper_invertible n (mmul n (fun a k => L a (perm p n k)) (lmat d n)) (rmat d n)); [apply rmat_up| |exact Hi].
  intros a b Ha Hb. rewrite <- mmul_assoc, <- (HL a b Ha Hb). unfold mmul at 1. transitivity (sum (fun k => L a (perm p n k) * A (perm p n k) b) n).
  - apply sum_ext. intros k Hk. f_equal. rewrite <- (swaps_perm p n A k). rewrite (F k b Hk Hb). reflexivity.
  - apply (sum_perm p n Pp n (fun k => L a k * A k b)). lia.
Qed.
Lemma rank_chol u n A d : is_chol conj u n A d -> (forall i j, (i < n)%nat -> (j < n)%nat -> A i j = conj (A j i)) -> full_column_rank n n A -> full_rank n d n.
Proof.
  intros (_ & F) Hm (L & HL) i Hi.
  assert (Fa : forall a b, (a < n)%nat -> (b < n)%nat -> A a b = if u then mmul n (adj conj (rmat d n)) (rmat d n) a b else mmul n (gmat d n) (adj conj (gmat d n)) a b).
  { intros a b Ha Hb. assert (Q : (if u then a <= b else b <= a)%nat \/ (if u then b <= a else a <= b)%nat) by (destruct u; lia). destruct Q as [Q|Q].
    - rewrite (F a b Ha Hb Q). destruct u; reflexivity.
    - rewrite (Hm a b Ha Hb), (F b a Hb Ha Q). destruct u; rewrite conj_sum by exact CJ; apply sum_ext; intros r _; rewrite (conj_mul _ CJ), (conj_inv _ CJ); unfold adj; ring. }
  destruct u.
  - rewrite <- rmat_diag. apply (upper_invertible n (mmul n L (adj conj (rmat d n))) (rmat d n)); [apply rmat_up| |exact Hi].
    intros a b Ha Hb. rewrite <- mmul_assoc, <- (HL a b Ha Hb). apply mmul_ext; [reflexivity|]. intros k Hk. symmetry. apply Fa; assumption.
  - assert (G : invertible (adj conj (gmat d n) i i)).
    { apply (upper_invertible n (mmul n L (gmat d n)) (adj conj (gmat d n))); [| |exact Hi].
      - intros a b Hab. unfold adj, gmat. destruct (Nat.leb_spec a b); [lia|]. apply conj_0. exact CJ.
      - intros a b Ha Hb. rewrite <- mmul_assoc, <- (HL a b Ha Hb). apply mmul_ext; [reflexivity|]. intros k Hk. symmetry. apply Fa; assumption. }
    unfold adj, gmat in G. rewrite Nat.leb_refl in G. rewrite <- (conj_inv _ CJ (elt d n i i)). apply conj_invertible; assumption.
Qed.
(** ** Least squares *)
Lemma conj_opp z : conj (- z) = - conj z.
Proof. assert (E : conj z + conj (- z) = 0). { rewrite <- (conj_add _ CJ). rewrite <- (conj_0 CJ). f_equal. ring. } transitivity (conj z + conj (- z) - conj z); [ring|]. rewrite E. ring. Qed.
Lemma conj_sub y z : conj (y - z) = conj y - conj z.
Proof. transitivity (conj (y + - z)); [f_equal; ring|]. rewrite (conj_add _ CJ), conj_opp. ring. Qed.
Lemma sum_sub (f g : nat -> K) n : sum (fun k => f k - g k) n = sum f n - sum g n.
Proof. induction n as [|n IH]; cbn [sum]; [ring|]. rewrite IH. ring. Qed.
Lemma pythagoras M N A X B j : (forall i, (i < N)%nat -> mmul M (adj conj A) (mmul N A X) i j = mmul M (adj conj A) B i j) ->
  forall Y, sqdist conj M (mmul N A Y) B j = sqdist conj M (mmul N A X) B j + sqdist conj M (mmul N A Y) (mmul N A X) j.
Proof.
  intros H Y.
  assert (Z : sum (fun r => conj (mmul N A Y r j - mmul N A X r j) * (mmul N A X r j - B r j)) M = 0).
  { transitivity (sum (fun r => sum (fun k => conj (Y k j - X k j) * (conj (A r k) * (mmul N A X r j - B r j))) N) M).
    { apply sum_ext. intros r Hr. unfold mmul at 1 2. rewrite <- sum_sub, conj_sum by exact CJ. rewrite <- sum_mul_r. apply sum_ext. intros k Hk.
      transitivity (conj (A r k * (Y k j - X k j)) * (mmul N A X r j - B r j)); [f_equal; f_equal; ring|]. rewrite (conj_mul _ CJ). ring. }
    rewrite sum_swap. apply sum_0. intros k Hk. rewrite sum_mul_l.
    transitivity (conj (Y k j - X k j) * (mmul M (adj conj A) (mmul N A X) k j - mmul M (adj conj A) B k j)); [|rewrite (H k Hk); ring].
    f_equal. unfold mmul at 2 4. rewrite <- sum_sub. apply sum_ext. intros r Hr. unfold adj. ring. }
  assert (Z' : sum (fun r => conj (mmul N A X r j - B r j) * (mmul N A Y r j - mmul N A X r j)) M = 0).
  { rewrite <- (conj_0 CJ), <- Z, conj_sum by exact CJ. apply sum_ext. intros r _. rewrite (conj_mul _ CJ), (conj_inv _ CJ). ring. }
  unfold sqdist. transitivity (sum (fun r => conj (mmul N A X r j - B r j) * (mmul N A X r j - B r j)) M + sum (fun r => conj (mmul N A Y r j - mmul N A X r j) * (mmul N A Y r j - mmul N A X r j)) M + 0 + 0); [|ring].
  rewrite <- Z at 1. rewrite <- Z'. rewrite <- !sum_add. apply sum_ext. intros r _.
  transitivity (conj ((mmul N A X r j - B r j) + (mmul N A Y r j - mmul N A X r j)) * (mmul N A Y r j - B r j)); [f_equal; f_equal; ring|]. rewrite (conj_add _ CJ). ring.
Qed.

(** ** From the constructor to the solution *)
Section F.
Variable geqrf : nat -> nat -> buf -> nat -> option (buf * list K).
Lemma qr_pipe M N st a A m : (1 <= N <= M)%nat -> rows a = M -> cols a = N -> holds2 m a A -> geqrf_for conj geqrf M N A ->
  exists q0 q, qrd_new (K := K) M N st = Some q0 /\ qrd_decompose geqrf q0 a m = Some q /\ q_rows q = M /\ q_cols q = N /\ q_store q = st /\ qr_of q A.
Proof.
  intros S E1 E2 H G. unfold qrd_new. rewrite assert_true by (rewrite !andb_true_iff, !Nat.ltb_lt, Nat.leb_le; lia).
  destruct (copy_in_ok M N a A m (eq_sym E1) (eq_sym E2) H) as (d & Ed & Ld & Hd). destruct (G d (Logic.conj Ld Hd)) as (d' & tau & Eg & F).
  eexists. exists {| q_rows := M; q_cols := N; q_store := st; q_data := d'; q_tau := tau |}. split; [reflexivity|]. unfold qrd_decompose. cbn [q_rows q_cols q_store].
  rewrite assert_true by (rewrite andb_true_iff, !Nat.eqb_eq; auto). rewrite Ed. cbn [bind]. rewrite Eg. cbn [bind fst snd]. unfold qr_of. cbn [q_rows q_cols q_data q_tau]. auto 8.
Qed.
Lemma llsqsol_ok cplx a b x A B m : (1 <= cols a <= rows a)%nat -> rows b = rows a -> rows x = cols a -> cols x = cols b ->
  holds2 m a A -> holds2 m b B -> wf2 m x -> geqrf_for conj geqrf (rows a) (cols a) A -> full_column_rank (rows a) (cols a) A ->
  exists m' X, llsqsol conj kdiv geqrf cplx a b x m = Some m' /\ only2 x m m' /\ holds2 m' x X /\
    forall i j, (i < cols a)%nat -> (j < cols b)%nat -> mmul (rows a) (adj conj A) (mmul (cols a) A X) i j = mmul (rows a) (adj conj A) B i j.
Proof.
  intros S E1 E2 E3 HA HB W G FR. unfold llsqsol. rewrite !assert_true by (apply Nat.eqb_eq; assumption).
  destruct (qr_pipe (rows a) (cols a) saveq1 a A m S eq_refl eq_refl HA G) as (q0 & q & -> & Ed & R1 & R2 & _ & QF). cbn [bind]. rewrite Ed. cbn [bind].
  rewrite <- R1, <- R2. apply lsqsol_ok; try congruence; try assumption. apply (rank_qr _ _ A _ (q_tau q)); [apply QF|]. rewrite R1, R2. exact FR.
Qed.
Lemma covsol_ok (cplx : bool) a b x b1 A B m : (cplx = false -> forall u, conj u = u) -> (1 <= cols a <= rows a)%nat -> rows b = cols a -> rows x = cols a -> cols x = cols b ->
  rows b1 = cols a -> cols b1 = cols b -> wf2 m b1 -> disjoint2 x b1 ->
  holds2 m a A -> holds2 m b B -> wf2 m x -> geqrf_for conj geqrf (rows a) (cols a) A -> full_column_rank (rows a) (cols a) A ->
  exists m' X, covsol conj kdiv geqrf cplx a b x b1 m = Some m' /\
    (forall z, (forall i j, (i < rows x)%nat -> (j < cols x)%nat -> addr2 x i j <> z) -> (forall i j, (i < rows b1)%nat -> (j < cols b1)%nat -> addr2 b1 i j <> z) -> m' z = m z) /\
    holds2 m' x X /\
    forall i j, (i < cols a)%nat -> (j < cols b)%nat -> mmul (cols a) (mmul (rows a) (adj conj A) A) X i j = B i j.
Proof.
  intros RC S E1 E2 E3 E4 E5 W1 Dj HA HB W G FR. unfold covsol. rewrite !assert_true by (apply Nat.eqb_eq; assumption).
  destruct (qr_pipe (rows a) (cols a) nosaveq a A m S eq_refl eq_refl HA G) as (q0 & q & -> & Ed & R1 & R2 & _ & QF). cbn [bind]. rewrite Ed. cbn [bind].
  assert (FD : full_rank (q_cols q) (q_data q) (q_rows q)) by (apply (rank_qr _ _ A _ (q_tau q)); [apply QF|]; rewrite R1, R2; exact FR).
  destruct (rsol_ok (if cplx then mat_herm else mat_trans) q A b b1 1 B m) as (m1 & Y & Em & O1 & H1 & Eq1); try congruence; try assumption. { destruct cplx; discriminate. }
  rewrite Em. cbn [bind].
  assert (Wx : wf2 m1 x).
  { destruct W as [Wa Wb]. split; [|exact Wb]. intros i j Hi Hj. rewrite O1; [apply Wa; assumption|]. intros k l Hk Hl e. exact (Dj i j k l Hi Hj Hk Hl (eq_sym e)). }
  destruct (rsol_ok mat_ntrans q A b1 x 1 Y m1) as (m2 & X & Em2 & O2 & H2 & Eq2); try congruence; try assumption.
  exists m2, X. split; [exact Em2|]. split; [|split; [exact H2|]].
  - intros z Z1 Z2. rewrite O2 by exact Z1. apply O1. exact Z2.
  - rewrite <- R1, <- R2. apply (cov_eq q A X Y B (cols b) QF).
    + intros i j Hi Hj. transitivity (1 * B i j); [|ring]. rewrite <- (Eq1 i j Hi Hj). apply sum_ext. intros k Hk. f_equal. unfold adj. destruct cplx; cbn [op_elem]; [reflexivity|]. apply RC. reflexivity.
    + intros i j Hi Hj. transitivity (1 * Y i j); [|ring]. rewrite <- (Eq2 i j) by congruence. reflexivity.
Qed.
Variable getrf : nat -> buf -> nat -> option (buf * list nat * bool).
Lemma lu_pipe n a A m : (1 <= n)%nat -> rows a = n -> cols a = n -> holds2 m a A -> getrf_for getrf n A ->
  exists l0 l ok, lud_new (K := K) n = Some l0 /\ lud_decompose getrf l0 a m = Some (l, ok) /\ l_len l = n /\ is_lu n A (l_data l) (l_piv l).
Proof.
  intros S E1 E2 H G. unfold lud_new. rewrite assert_true by (apply Nat.ltb_lt; lia).
  destruct (copy_in_ok n n a A m (eq_sym E1) (eq_sym E2) H) as (d & Ed & Ld & Hd). destruct (G d (Logic.conj Ld Hd)) as (d' & p & ok & Eg & F).
  eexists. exists {| l_len := n; l_data := d'; l_piv := p |}, ok. split; [reflexivity|]. unfold lud_decompose. cbn [l_len].
  rewrite assert_true by (rewrite andb_true_iff, !Nat.eqb_eq; auto). rewrite Ed. cbn [bind]. rewrite Eg. cbn [bind fst snd l_data l_piv]. auto.
Qed.
Variable potrf : bool -> nat -> buf -> nat -> option (buf * bool).
Lemma chol_pipe u n a A m : (1 <= n)%nat -> rows a = n -> cols a = n -> holds2 m a A -> potrf_for conj potrf u n A ->
  exists c0 c, chold_new (K := K) u n = Some c0 /\ chold_decompose potrf c0 a m = Some (c, true) /\ c_len c = n /\ c_upper c = u /\ is_chol conj u n A (c_data c).
Proof.
  intros S E1 E2 H G. unfold chold_new. rewrite assert_true by (apply Nat.ltb_lt; lia).
  destruct (copy_in_ok n n a A m (eq_sym E1) (eq_sym E2) H) as (d & Ed & Ld & Hd). destruct (G d (Logic.conj Ld Hd)) as (d' & Eg & F).
  eexists. exists {| c_upper := u; c_len := n; c_data := d' |}. split; [reflexivity|]. unfold chold_decompose. cbn [c_len c_upper].
  rewrite assert_true by (rewrite andb_true_iff, !Nat.eqb_eq; auto). rewrite Ed. cbn [bind]. rewrite Eg. cbn [bind fst snd c_data]. auto 6.
Qed.
End F.
End P.
