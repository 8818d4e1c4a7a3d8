(** Proofs about products whose operands do not match, and about the products
    by 3x3 and 4x4 matrices. *)
From Coq Require Import ZArith List Lia Bool Arith.
From Verif Require Import Base Fir FirProofs Freqswap FreqswapProofs Conv ConvProofs Matvec MatvecProofs Prod34.
Import ListNotations.
Local Open Scope nat_scope.

Section P.
Context {K : CRing} (conj : K -> K).
Local Open Scope cr_scope.
Add Ring Kring : (r_th K).
Implicit Types m : mem K.

Lemma prod_mm_le h r (a b : arg2) x y m : wf2 m r -> rows r = arows a -> cols r = acols b -> (acols a <= arows b)%nat -> r2 r m a x -> r2 r m b y ->
  exists m', assign_prod conj h r a b m = Some m' /\ only2 r m m' /\ holds2 m' r (fun i j => sum (fun k => x i k * (if h then conj (y k j) else y k j)) (acols a)).
Proof.
  intros W Er Ec Ek Ra Rb. unfold assign_prod, prod_mm. rewrite <- Er, <- Ec, !assert_true by (apply Nat.eqb_refl).
  match goal with |- exists m', loop (fun i m => loop (fun j m => @?G i j m) _ _ m) _ _ _ = _ /\ _ /\ holds2 _ _ ?V => destruct (nest_up conj r m V G W) as (m' & E & O & H) end.
  - intros i j m1 Hi Hj O1 _. cbv beta. rewrite (acc_loop _ (fun k => x i k * (if h then conj (y k j) else y k j))).
    + cbn [bind]. f_equal. ring.
    + intros k s Hk. rewrite Ra, Rb by (lia || assumption). reflexivity.
  - exists m'. split; [exact E|]. split; [apply only2_off; exact O|exact H].
Qed.
Lemma prod_mv_le r a b x y m : wf1 m r -> len r = rows a -> (cols a <= len b)%nat -> disjoint21 a r -> disjoint1 r b -> holds2 m a x -> holds1 m b y ->
  exists m', prod_mv r (plain2 a) (plain1 b) m = Some m' /\ only1 r m m' /\ holds1 m' r (fun i => sum (fun k => x i k * y k) (cols a)).
Proof.
  intros W Er Ek Da Db Ha Hb. unfold prod_mv. rewrite Er.
  match goal with |- exists m', loop ?G 0 _ _ = _ /\ _ /\ holds1 _ _ ?V => destruct (writes1 r (rows a) V G m W ltac:(lia)) as (m' & E & O & H) end.
  - intros i m1 Hi O1. rewrite (acc_loop _ (fun k => x i k * y k)).
    + cbn [bind acols plain2]. f_equal. ring.
    + intros k s Hk. cbn [acols plain2 aget2 plain1 aget1] in *. rewrite get2_ok, get1_ok by lia.
      rewrite (holds2_off1 r a x m m1 Da O1 Ha i k) by lia. rewrite (holds1_off r b y m m1 Db O1 Hb k) by lia. reflexivity.
  - exists m'. split; [exact E|]. split; [apply only1_off; exact O|]. intros i Hi. rewrite H by exact Hi. destruct (Nat.ltb_spec i (rows a)); [reflexivity|lia].
Qed.

(** A loop fails when one of its steps always fails. *)
Lemma loop_none {A} (f : nat -> A -> option A) n : forall s k x, (s <= k < s + n)%nat -> (forall y, f k y = None) -> loop f s n x = None.
Proof.
  induction n as [|n IH]; intros s k x Hk F; [lia|]. cbn [loop]. destruct (Nat.eq_dec s k) as [->|D]; [rewrite F; reflexivity|].
  destruct (f s x) as [x'|]; [|reflexivity]. cbn [bind]. apply (IH (s + 1)%nat k); [lia|exact F].
Qed.
Lemma get2_row_out m b i j : (rows b <= i)%nat -> get2 m b i j = None.
Proof. intros H. unfold get2. rewrite (proj2 (Nat.ltb_ge i (rows b)) H). reflexivity. Qed.
Lemma get2_col_out m b i j : (cols b <= j)%nat -> get2 m b i j = None.
Proof. intros H. unfold get2. rewrite (proj2 (Nat.ltb_ge j (cols b)) H). destruct (i <? rows b)%nat; reflexivity. Qed.
Lemma get1_out m b i : (len b <= i)%nat -> get1 m b i = None.
Proof. intros H. unfold get1. rewrite (proj2 (Nat.ltb_ge i (len b)) H). reflexivity. Qed.
Lemma bind_none {A B} (o : option A) : (x <- o ;; @None B) = None.
Proof. destruct o; reflexivity. Qed.
Lemma prod_mm_short h r (a b : arg2) m : (0 < rows r)%nat -> (0 < cols r)%nat -> (arows b < acols a)%nat ->
  (forall m' k j, (arows b <= k)%nat -> aget2 b m' k j = None) -> assign_prod conj h r a b m = None.
Proof.
  intros Hr Hc L N. unfold assign_prod. destruct (rows r =? arows a)%nat; [|reflexivity]. destruct (cols r =? acols b)%nat; [|reflexivity].
  unfold prod_mm. apply (loop_none _ _ 0 0); [lia|]. intros m1. apply (loop_none _ _ 0 0); [lia|]. intros m2.
  rewrite (loop_none _ _ 0%nat (arows b)); [reflexivity|lia|]. intros s. rewrite N by lia. cbn [bind]. apply bind_none.
Qed.
Lemma prod_mv_short r a b m : (0 < len r)%nat -> (len b < cols a)%nat -> prod_mv r (plain2 a) (plain1 b) m = None.
Proof.
  intros Hr L. unfold prod_mv. apply (loop_none _ _ 0 0); [lia|]. intros m1.
  rewrite (loop_none _ _ 0%nat (len b)); [reflexivity|cbn [acols plain2]; lia|]. intros s. cbn [plain1 aget1]. rewrite get1_out by lia. cbn [bind]. apply bind_none.
Qed.

(** The cumulative sums, whatever the size of the destination. *)
Lemma cumsum2_short d v w m : (d < 2)%nat -> (0 < rows v)%nat -> (0 < cols v)%nat -> (rows w < rows v \/ cols w < cols v)%nat -> cumsum2 d v w m = None.
Proof.
  intros Hd Hr Hc Hs.
  assert (P : forall m i j x, (rows w <= i \/ cols w <= j)%nat -> put2 m w i j x = None).
  { intros m0 i j x H. unfold put2. destruct (Nat.ltb_spec i (rows w)); [|reflexivity]. destruct (Nat.ltb_spec j (cols w)); [lia|reflexivity]. }
  destruct d as [|[|d]]; [| |lia]; unfold cumsum2.
  - destruct Hs as [Hs|Hs].
    + apply (loop_none _ _ 0 (rows w)); [lia|]. intros m1. rewrite (loop_none _ _ 0%nat 0%nat); [reflexivity|lia|]. intros [s m2].
      destruct (get2 m2 v (rows w) 0); [|reflexivity]. cbn [bind]. rewrite P by lia. reflexivity.
    + apply (loop_none _ _ 0 0); [lia|]. intros m1. rewrite (loop_none _ _ 0%nat (cols w)); [reflexivity|lia|]. intros [s m2].
      destruct (get2 m2 v 0 (cols w)); [|reflexivity]. cbn [bind]. rewrite P by lia. reflexivity.
  - destruct Hs as [Hs|Hs].
    + apply (loop_none _ _ 0 0); [lia|]. intros m1. rewrite (loop_none _ _ 0%nat (rows w)); [reflexivity|lia|]. intros [s m2].
      destruct (get2 m2 v (rows w) 0); [|reflexivity]. cbn [bind]. rewrite P by lia. reflexivity.
    + apply (loop_none _ _ 0 (cols w)); [lia|]. intros m1. rewrite (loop_none _ _ 0%nat 0%nat); [reflexivity|lia|]. intros [s m2].
      destruct (get2 m2 v 0 (cols w)); [|reflexivity]. cbn [bind]. rewrite P by lia. reflexivity.
Qed.
End P.
