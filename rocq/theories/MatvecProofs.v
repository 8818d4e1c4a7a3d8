(** Proofs about matrix and vector products. *)
From Coq Require Import ZArith List Lia Bool Arith.
From Verif Require Import Base Fir FirProofs Freqswap FreqswapProofs Conv ConvProofs Matvec.
Import ListNotations.
Local Open Scope nat_scope.

Section P.
Context {K : CRing} (conj : K -> K).
Local Open Scope cr_scope.
Add Ring Kring : (r_th K).
Implicit Types m : mem K.

(** Writing values [v] at a growing set of positions of [out]. *)
Section Writes.
Variables (out : block2) (m0 : mem K) (v : nat -> nat -> K).
Definition winv (S : nat -> nat -> Prop) m : Prop := off2 out m0 m /\
  forall i j, (i < rows out)%nat -> (j < cols out)%nat -> (S i j -> m (addr2 out i j) = Some (v i j)) /\ (~ S i j -> m (addr2 out i j) = m0 (addr2 out i j)).
Lemma winv_ext (S S' : nat -> nat -> Prop) m : winv S m -> (forall i j, (i < rows out)%nat -> (j < cols out)%nat -> S i j <-> S' i j) -> winv S' m.
Proof.
  intros [O H] E. split; [exact O|]. intros i j Hi Hj. destruct (H i j Hi Hj). specialize (E i j Hi Hj). split; intros Q; tauto.
Qed.
Lemma winv_nil : winv (fun _ _ => False) m0.
Proof. split; [split; [reflexivity|intros a; auto]|]. intros i j Hi Hj. split; [contradiction|reflexivity]. Qed.
Lemma winv_put (S : nat -> nat -> Prop) m p q : wf2 m0 out -> winv S m -> (p < rows out)%nat -> (q < cols out)%nat ->
  exists m', put2 m out p q (v p q) = Some m' /\ winv (fun i j => S i j \/ (i = p /\ j = q)) m'.
Proof.
  intros [Al In] [[O A] H] Hp Hq. unfold put2, mstore. rewrite (proj2 (Nat.ltb_lt _ _) Hp), (proj2 (Nat.ltb_lt _ _) Hq). cbn [bind].
  destruct (m (addr2 out p q)) as [x|] eqn:E; [|exfalso; apply (A (addr2 out p q)); auto].
  eexists. split; [reflexivity|]. split.
  - split; [|apply alloc_trans with m; [exact A|apply mupd_alloc]]. intros a Ha. rewrite mupd_other; [apply O; exact Ha|]. apply Ha; assumption.
  - intros i j Hi Hj. destruct (H i j Hi Hj) as [H1 H2].
    destruct (Z.eq_dec (addr2 out i j) (addr2 out p q)) as [e|e].
    + destruct (In i j p q Hi Hj Hp Hq e) as [-> ->]. rewrite mupd_same. split; [reflexivity|]. intros N. exfalso. apply N. auto.
    + rewrite mupd_other by exact e. split; [|intros N; apply H2; tauto]. intros [Q|[-> ->]]; [apply H1; exact Q|congruence].
Qed.
Lemma winv_loop (f : nat -> mem K -> option (mem K)) (S : nat -> nat -> Prop) (T : nat -> nat -> nat -> Prop) n m :
  (forall k m, (k < n)%nat -> winv (fun i j => S i j \/ exists k', (k' < k)%nat /\ T k' i j) m ->
     exists m', f k m = Some m' /\ winv (fun i j => (S i j \/ exists k', (k' < k)%nat /\ T k' i j) \/ T k i j) m') ->
  winv S m -> exists m', loop f 0 n m = Some m' /\ winv (fun i j => S i j \/ exists k', (k' < n)%nat /\ T k' i j) m'.
Proof.
  intros Hf H0. destruct (loop_inv f (fun k m => winv (fun i j => S i j \/ exists k', (k' < k)%nat /\ T k' i j) m) n 0 m) as (m' & E & P).
  - apply (winv_ext S); [exact H0|]. intros i j _ _. split; [auto|]. intros [?|(k' & ? & _)]; [assumption|lia].
  - intros k m1 [_ Hk] P. destruct (Hf k m1 ltac:(lia) P) as (m2 & E & P2). exists m2. split; [exact E|].
    apply (winv_ext _ _ _ P2). intros i j _ _. rewrite Nat.add_1_r. split.
    + intros [[?|(k' & ? & ?)]|?]; [auto|right; exists k'; split; [lia|assumption]|right; exists k; split; [lia|assumption]].
    + intros [?|(k' & ? & ?)]; [auto|]. destruct (Nat.eq_dec k' k) as [->|]; [auto|]. left. right. exists k'. split; [lia|assumption].
  - exists m'. auto.
Qed.
Lemma winv_down (f : nat -> mem K -> option (mem K)) (S : nat -> nat -> Prop) (T : nat -> nat -> nat -> Prop) n m :
  (forall k m, (k < n)%nat -> winv (fun i j => S i j \/ exists k', (k < k' < n)%nat /\ T k' i j) m ->
     exists m', f k m = Some m' /\ winv (fun i j => (S i j \/ exists k', (k < k' < n)%nat /\ T k' i j) \/ T k i j) m') ->
  winv S m -> exists m', down n f m = Some m' /\ winv (fun i j => S i j \/ exists k', (k' < n)%nat /\ T k' i j) m'.
Proof.
  intros Hf H0. unfold down. destruct (winv_loop (fun t m => f (n - 1 - t)%nat m) S (fun t => T (n - 1 - t)%nat) n m) as (m' & E & P).
  - intros k m1 Hk P. destruct (Hf (n - 1 - k)%nat m1 ltac:(lia)) as (m2 & E & P2).
    + apply (winv_ext _ _ _ P). intros i j _ _. split; (intros [?|(k' & ? & ?)]; [auto|right]).
      * exists (n - 1 - k')%nat. split; [lia|assumption].
      * exists (n - 1 - k')%nat. split; [lia|]. replace (n - 1 - (n - 1 - k'))%nat with k' by lia. assumption.
    + exists m2. split; [exact E|]. apply (winv_ext _ _ _ P2). intros i j _ _. split; (intros [[?|(k' & ? & ?)]|?]; [auto| |auto]); left; right.
      * exists (n - 1 - k')%nat. split; [lia|]. replace (n - 1 - (n - 1 - k'))%nat with k' by lia. assumption.
      * exists (n - 1 - k')%nat. split; [lia|assumption].
  - exact H0.
  - exists m'. split; [exact E|]. apply (winv_ext _ _ _ P). intros i j _ _. split; (intros [?|(k' & ? & ?)]; [auto|right]).
    + exists (n - 1 - k')%nat. split; [lia|assumption].
    + exists (n - 1 - k')%nat. split; [lia|]. replace (n - 1 - (n - 1 - k'))%nat with k' by lia. assumption.
Qed.
(** A nest of two loops, downwards or upwards, each (i,j) once. *)
Lemma nest_down (g : nat -> nat -> mem K -> option (mem K)) : wf2 m0 out ->
  (forall i j m, (i < rows out)%nat -> (j < cols out)%nat -> off2 out m0 m -> m (addr2 out i j) = m0 (addr2 out i j) -> g i j m = put2 m out i j (v i j)) ->
  exists m', down (rows out) (fun i m => down (cols out) (fun j m => g i j m) m) m0 = Some m' /\ off2 out m0 m' /\ holds2 m' out v.
Proof.
  intros W Hg.
  destruct (winv_down (fun i m => down (cols out) (fun j m => g i j m) m) (fun _ _ => False) (fun i i' _ => i' = i) (rows out) m0) as (m' & E & O & P).
  - intros i m Hi P. destruct (winv_down (fun j m => g i j m) (fun i0 j0 => False \/ exists k' : nat, (i < k' < rows out)%nat /\ i0 = k') (fun j i' j' => i' = i /\ j' = j) (cols out) m) as (m' & E & P').
    + intros j m1 Hj P1. rewrite Hg; [apply (winv_put _ m1 i j W P1 Hi Hj)|assumption|assumption|exact (proj1 P1)|].
      apply (proj2 P1); [assumption|assumption|]. intros [[[]|(k' & ? & ?)]|(k' & ? & ? & ?)]; lia.
    + exact P.
    + exists m'. split; [exact E|]. apply (winv_ext _ _ _ P'). intros a b Ha Hb. split; [intros [?|(k' & ? & ? & ?)]; auto|intros [?|?]; [auto|right; exists b; auto]].
  - apply winv_nil.
  - exists m'. split; [exact E|]. split; [exact O|]. intros i j Hi Hj. apply P; [assumption|assumption|]. right. exists i. auto.
Qed.
Lemma nest_up (g : nat -> nat -> mem K -> option (mem K)) : wf2 m0 out ->
  (forall i j m, (i < rows out)%nat -> (j < cols out)%nat -> off2 out m0 m -> m (addr2 out i j) = m0 (addr2 out i j) -> g i j m = put2 m out i j (v i j)) ->
  exists m', loop (fun i m => loop (fun j m => g i j m) 0 (cols out) m) 0 (rows out) m0 = Some m' /\ off2 out m0 m' /\ holds2 m' out v.
Proof.
  intros W Hg.
  destruct (winv_loop (fun i m => loop (fun j m => g i j m) 0 (cols out) m) (fun _ _ => False) (fun i i' _ => i' = i) (rows out) m0) as (m' & E & O & P).
  - intros i m Hi P. destruct (winv_loop (fun j m => g i j m) (fun i0 j0 => False \/ exists k' : nat, (k' < i)%nat /\ i0 = k') (fun j i' j' => i' = i /\ j' = j) (cols out) m) as (m' & E & P').
    + intros j m1 Hj P1. rewrite Hg; [apply (winv_put _ m1 i j W P1 Hi Hj)|assumption|assumption|exact (proj1 P1)|].
      apply (proj2 P1); [assumption|assumption|]. intros [[[]|(k' & ? & ?)]|(k' & ? & ? & ?)]; lia.
    + exact P.
    + exists m'. split; [exact E|]. apply (winv_ext _ _ _ P'). intros a b Ha Hb. split; [intros [?|(k' & ? & ? & ?)]; auto|intros [?|?]; [auto|right; exists b; auto]].
  - apply winv_nil.
  - exists m'. split; [exact E|]. split; [exact O|]. intros i j Hi Hj. apply P; [assumption|assumption|]. right. exists i. auto.
Qed.
(** Running sums along the second loop index; [pos r i] is the element. *)
Lemma nest_cumsum (v' : block2) (x : nat -> nat -> K) (swap : bool) n n' :
  let p (r i : nat) := if swap then i else r in let q (r i : nat) := if swap then r else i in
  wf2 m0 out -> holds2 m0 v' x -> apart_or_same2 out v' -> (if swap then n' else n) = rows out -> (if swap then n else n') = cols out -> rows v' = rows out -> cols v' = cols out ->
  (forall i j, v i j = if swap then sum (fun t => x t j) (S i) else sum (fun t => x i t) (S j)) ->
  exists m', loop (fun r m => sm <- loop (fun i '(s, m) => y <- get2 m v' (p r i) (q r i) ;; m <- put2 m out (p r i) (q r i) (s + y) ;; Some (s + y, m)) 0 n' (0, m) ;; Some (snd sm)) 0 n m0 = Some m' /\ off2 out m0 m' /\ holds2 m' out v.
Proof.
  intros p q W H AS En En' Er Ec Hv.
  assert (R : forall r i, (r < n)%nat -> (i < n')%nat -> (p r i < rows out)%nat /\ (q r i < cols out)%nat) by (intros r i Hr Hi; subst p q; destruct swap; cbn; lia).
  destruct (winv_loop (fun r m => sm <- loop (fun i '(s, m) => y <- get2 m v' (p r i) (q r i) ;; m <- put2 m out (p r i) (q r i) (s + y) ;; Some (s + y, m)) 0 n' (0, m) ;; Some (snd sm))
     (fun _ _ => False) (fun r i' j' => (if swap then j' else i') = r) n m0) as (m' & E & O & P).
  - intros r m Hr P.
    match goal with |- exists m', bind (loop ?F _ _ _) _ = _ /\ _ => destruct (loop_inv F (fun k sm => fst sm = sum (fun t => x (p r t) (q r t)) k /\
      winv (fun i j => (False \/ (exists k' : nat, (k' < r)%nat /\ (if swap then j else i) = k')) \/ ((if swap then j else i) = r /\ ((if swap then i else j) < k)%nat)) (snd sm)) n' 0%nat (0, m)) as (sm & E & Q) end.
    + split; [reflexivity|]. apply (winv_ext _ _ _ P). intros i j _ _. cbn. split; [auto|]. intros [?|[_ ?]]; [assumption|lia].
    + intros i [s m1] [_ Hi] [Es P1]. cbn [fst snd] in *. cbn [Nat.add] in Hi. destruct (R r i Hr Hi) as [Hp Hq].
      assert (G : get2 m1 v' (p r i) (q r i) = Some (x (p r i) (q r i))).
      { rewrite get2_ok by lia. assert (Em : m1 (addr2 v' (p r i) (q r i)) = m0 (addr2 v' (p r i) (q r i))); [|rewrite Em; apply H; lia].
        destruct P1 as [[O1 A1] P1].
        destruct (Z.eq_dec (addr2 out (p r i) (q r i)) (addr2 v' (p r i) (q r i))) as [e|e].
        - rewrite <- e. apply P1; [assumption|assumption|]. subst p q. cbn beta in *. destruct swap; intros [[[]|(k' & ? & ?)]|[? ?]]; lia.
        - apply O1. intros a b Ha Hb e'. destruct (AS a b (p r i) (q r i)) as [-> ->]; try lia; congruence. }
      rewrite G. cbn [bind].
      assert (Ev : s + x (p r i) (q r i) = v (p r i) (q r i)).
      { rewrite Es, Hv. subst p q. cbn beta. destruct swap; reflexivity. }
      destruct (winv_put _ m1 (p r i) (q r i) W P1 Hp Hq) as (m2 & E2 & P2). rewrite <- Ev in E2. rewrite E2. cbn [bind].
      eexists. split; [reflexivity|]. cbn [fst snd]. split; [rewrite Nat.add_1_r, Es; reflexivity|].
      apply (winv_ext _ _ _ P2). intros a b Ha Hb. subst p q. cbn beta. destruct swap; split; intros Hx; repeat destruct Hx as [Hx|Hx]; try tauto; try lia;
        (destruct Hx as [H1 H2]; match type of H2 with (?t < _)%nat => destruct (Nat.eq_dec t i); [right; lia|left; right; lia] end).
    + rewrite E. cbn [bind]. eexists. split; [reflexivity|]. destruct Q as [_ Q]. apply (winv_ext _ _ _ Q). intros a b Ha Hb. subst p q. cbn beta in *.
      destruct swap; split; intros Hx; repeat destruct Hx as [Hx|Hx]; try tauto; right; split; try lia; assumption.
  - apply winv_nil.
  - exists m'. split; [exact E|]. split; [exact O|]. intros i j Hi Hj. apply P; [assumption|assumption|]. right. destruct swap; [exists j|exists i]; split; try reflexivity; lia.
Qed.
End Writes.

(** Reading operands while the destination is being written. *)
Definition r2 (out : block2) m0 (a : arg2) (f : nat -> nat -> K) := forall m i j, (i < arows a)%nat -> (j < acols a)%nat -> off2 out m0 m -> aget2 a m i j = Some (f i j).
Definition r12 (out : block2) m0 (a : arg1) (f : nat -> K) := forall m i, (i < alen a)%nat -> off2 out m0 m -> aget1 a m i = Some (f i).
Lemma r2_plain out m0 b x : disjoint2 out b -> holds2 m0 b x -> r2 out m0 (plain2 b) x.
Proof. intros D H m i j Hi Hj O. cbn in *. rewrite get2_ok by assumption. apply (holds2_off out b x m0); assumption. Qed.
Lemma r2_op out m0 o b x : disjoint2 out b -> holds2 m0 b x -> r2 out m0 (apply_mat_op conj o (plain2 b)) (op_elem conj o x).
Proof.
  intros D H. pose proof (r2_plain out m0 b x D H) as P.
  destruct o; intros m i j Hi Hj O; cbn [apply_mat_op conj2 trans2 aget2 op_elem arows acols] in *; rewrite P by assumption; reflexivity.
Qed.
Lemma op_size o b : arows (apply_mat_op conj o (plain2 b)) = op_rows o b /\ acols (apply_mat_op conj o (plain2 b)) = op_cols o b.
Proof. destruct o; split; reflexivity. Qed.
Lemma holds1_off2 out inp x m0 m : disjoint21 out inp -> off2 out m0 m -> holds1 m0 inp x -> holds1 m inp x.
Proof. intros D [O _] H i Hi. rewrite O; [apply H; exact Hi|]. intros a b Ha Hb e. apply (D a b i); auto. Qed.
Lemma r12_plain out m0 b x : disjoint21 out b -> holds1 m0 b x -> r12 out m0 (plain1 b) x.
Proof. intros D H m i Hi O. cbn in *. rewrite get1_ok by assumption. apply (holds1_off2 out b x m0); assumption. Qed.
Lemma only2_off out m0 m : off2 out m0 m -> only2 out m0 m.
Proof. intros [O _] a H. apply O. intros i j Hi Hj e. apply (H i j Hi Hj). congruence. Qed.
Lemma only1_off out m0 m : off1 out m0 m -> only1 out m0 m.
Proof. intros [O _] a H. apply O. intros i Hi e. apply (H i Hi). congruence. Qed.
Lemma read_put {A} (m : mem K) (e : option A) x (f : A -> option (mem K)) : e = Some x -> (y <- e ;; f y) = f x.
Proof. intros ->. reflexivity. Qed.

Lemma outer_ok h r alpha a b x y m : wf2 m r -> len a = rows r -> len b = cols r -> disjoint21 r a -> disjoint21 r b -> holds1 m a x -> holds1 m b y ->
  exists m', outer conj h r alpha (plain1 a) (plain1 b) m = Some m' /\ only2 r m m' /\ holds2 m' r (fun i j => alpha * x i * (if h then conj (y j) else y j)).
Proof.
  intros W La Lb Da Db Ha Hb. unfold outer. cbn [alen plain1]. rewrite La, Lb, !assert_true by (apply Nat.eqb_refl).
  destruct (nest_down r m (fun i j => alpha * x i * (if h then conj (y j) else y j)) (fun i j m => x <- aget1 (plain1 a) m i ;; y <- aget1 (plain1 b) m j ;; put2 m r i j (alpha * x * (if h then conj y else y))) W) as (m' & E & O & H).
  - intros i j m1 Hi Hj O1 _. rewrite (r12_plain r m a x Da Ha m1 i) by (cbn; lia || assumption). rewrite (r12_plain r m b y Db Hb m1 j) by (cbn; lia || assumption). reflexivity.
  - exists m'. split; [exact E|]. split; [apply only2_off; exact O|exact H].
Qed.
Lemma kron1_ok r alpha a b x y m : wf2 m r -> len b = rows r -> len a = cols r -> disjoint21 r a -> disjoint21 r b -> holds1 m a x -> holds1 m b y ->
  exists m', kron1 r alpha (plain1 a) (plain1 b) m = Some m' /\ only2 r m m' /\ holds2 m' r (fun i j => alpha * y i * x j).
Proof.
  intros W La Lb Da Db Ha Hb. unfold kron1. cbn [alen plain1]. rewrite La, Lb.
  destruct (nest_down r m (fun i j => alpha * y i * x j) (fun i j m => x <- aget1 (plain1 b) m i ;; y <- aget1 (plain1 a) m j ;; put2 m r i j (alpha * x * y)) W) as (m' & E & O & H).
  - intros i j m1 Hi Hj O1 _. rewrite (r12_plain r m a x Da Ha m1 j) by (cbn; lia || assumption). rewrite (r12_plain r m b y Db Hb m1 i) by (cbn; lia || assumption). reflexivity.
  - exists m'. split; [exact E|]. split; [apply only2_off; exact O|exact H].
Qed.
Lemma dot_eq (a b : arg1) x y m : alen a = alen b -> (forall i, (i < alen a)%nat -> aget1 a m i = Some (x i)) -> (forall i, (i < alen b)%nat -> aget1 b m i = Some (y i)) ->
  Matvec.dot a b m = Some (sum (fun i => x i * y i) (alen a)).
Proof.
  intros L Ha Hb. unfold Matvec.dot. rewrite assert_true by (apply Nat.eqb_eq; exact L).
  rewrite (acc_loop _ (fun i => x i * y i)).
  - f_equal. ring.
  - intros k s Hk. rewrite Ha, Hb by lia. reflexivity.
Qed.
Lemma gemp_ok opA opB alpha A B beta C a b c m :
  op_rows opA A = rows C -> op_cols opB B = cols C -> op_cols opA A = op_rows opB B ->
  wf2 m C -> disjoint2 C A -> disjoint2 C B -> holds2 m A a -> holds2 m B b -> holds2 m C c ->
  exists m', gemp conj opA opB alpha A B beta C m = Some m' /\ only2 C m m' /\
    holds2 m' C (fun i j => alpha * sum (fun k => op_elem conj opA a i k * op_elem conj opB b k j) (op_cols opA A) + beta * c i j).
Proof.
  intros E1 E2 E3 W Da Db Ha Hb Hc. unfold gemp, gemp_exec. destruct (op_size opA A) as [-> ->]. destruct (op_size opB B) as [-> ->].
  rewrite E1, E2, E3, !assert_true by (apply Nat.eqb_refl).
  match goal with |- exists m', down _ (fun i m => down _ (fun j m => @?G i j m) m) _ = _ /\ _ /\ holds2 _ _ ?V => destruct (nest_down C m V G W) as (m' & E & O & H) end.
  - intros i j m1 Hi Hj O1 F. cbv beta.
    rewrite (acc_loop _ (fun k => op_elem conj opA a i k * op_elem conj opB b k j)).
    + cbn [bind]. rewrite get2_ok, F, Hc by assumption. cbn [bind]. f_equal. ring.
    + intros k s Hk. destruct (op_size opA A) as [S1 S2]. destruct (op_size opB B) as [S3 S4].
      rewrite (r2_op C m opA A a Da Ha m1 i k) by (lia || assumption). rewrite (r2_op C m opB B b Db Hb m1 k j) by (lia || assumption). reflexivity.
  - exists m'. split; [exact E|]. split; [apply only2_off; exact O|exact H].
Qed.
Lemma gems_ok opA alpha A beta C a c m :
  op_rows opA A = rows C -> op_cols opA A = cols C -> wf2 m C -> (disjoint2 C A \/ ((opA = mat_ntrans \/ opA = mat_conj) /\ apart_or_same2 C A)) -> holds2 m A a -> holds2 m C c ->
  exists m', gems conj opA alpha A beta C m = Some m' /\ only2 C m m' /\ holds2 m' C (fun i j => alpha * op_elem conj opA a i j + beta * c i j).
Proof.
  intros E1 E2 W D Ha Hc. unfold gems. destruct (op_size opA A) as [S1 S2]. rewrite S1, S2, E1, E2, !assert_true by (apply Nat.eqb_refl).
  match goal with |- exists m', loop (fun i m => loop (fun j m => @?G i j m) _ _ m) _ _ _ = _ /\ _ /\ holds2 _ _ ?V => destruct (nest_up C m V G W) as (m' & E & O & H) end.
  - intros i j m1 Hi Hj O1 F. cbv beta. rewrite get2_ok, F, Hc by assumption.
    assert (G : aget2 (apply_mat_op conj opA (plain2 A)) m1 i j = Some (op_elem conj opA a i j)).
    { destruct D as [D|[Ho AS]]; [apply (r2_op C m opA A a D Ha); lia || assumption|].
      assert (Gp : (i < rows A)%nat -> (j < cols A)%nat -> get2 m1 A i j = Some (a i j)).
      { intros Hi' Hj'. rewrite get2_ok by assumption. destruct (Z.eq_dec (addr2 C i j) (addr2 A i j)) as [e|e].
        - rewrite <- e, F, e. apply Ha; assumption.
        - rewrite (proj1 O1); [apply Ha; assumption|]. intros p q Hp Hq e'. destruct (AS p q i j) as [-> ->]; auto. }
      destruct Ho as [-> | ->]; cbn [apply_mat_op conj2 plain2 aget2 op_elem op_rows op_cols] in *; rewrite Gp by lia; reflexivity. }
    rewrite G. reflexivity.
  - exists m'. split; [exact E|]. split; [apply only2_off; exact O|exact H].
Qed.
Lemma kron2_ok r alpha v w a b m : wf2 m r -> rows r = (rows v * rows w)%nat -> cols r = (cols v * cols w)%nat -> disjoint2 r v -> disjoint2 r w -> holds2 m v a -> holds2 m w b ->
  exists m', kron2 r alpha (plain2 v) (plain2 w) m = Some m' /\ only2 r m m' /\
    forall i j k l, (i < rows v)%nat -> (j < rows w)%nat -> (k < cols v)%nat -> (l < cols w)%nat -> m' (addr2 r (i * rows w + j) (k * cols w + l)) = Some (alpha * a i k * b j l).
Proof.
  intros W Er Ec Dv Dw Hv Hw. unfold kron2. cbn [arows acols plain2].
  set (val := fun p q => alpha * a (p / rows w)%nat (q / cols w)%nat * b (p mod rows w)%nat (q mod cols w)%nat).
  assert (B : forall x y n d, (x < n)%nat -> (y < d)%nat -> (y + x * d < n * d)%nat).
  { intros x y n d Hx Hy. apply Nat.lt_le_trans with (S x * d)%nat; [cbn [Nat.mul]; lia|]. apply Nat.mul_le_mono_r. lia. }
  assert (DM : forall x y d, (y < d)%nat -> ((y + x * d) / d = x /\ (y + x * d) mod d = y)%nat).
  { intros x y d Hy. rewrite Nat.div_add, Nat.mod_add, Nat.div_small, Nat.mod_small by lia. lia. }
  destruct (winv_down r m val (fun i m => down (rows w) (fun j m => down (cols v) (fun k m => down (cols w) (fun l m =>
     x <- aget2 (plain2 v) m i k ;; y <- aget2 (plain2 w) m j l ;; put2 m r (j + i * rows w)%nat (l + k * cols w)%nat (alpha * x * y)) m) m) m)
     (fun _ _ => False) (fun i p _ => exists j, (j < rows w)%nat /\ p = (j + i * rows w)%nat) (rows v) m) as (m' & E & O & P).
  - intros i m1 Hi P1.
    match type of P1 with winv _ _ _ ?S _ => destruct (winv_down r m val (fun j m => down (cols v) (fun k m => down (cols w) (fun l m =>
       x <- aget2 (plain2 v) m i k ;; y <- aget2 (plain2 w) m j l ;; put2 m r (j + i * rows w)%nat (l + k * cols w)%nat (alpha * x * y)) m) m) S (fun j p _ => p = (j + i * rows w)%nat) (rows w) m1) as (m2 & E2 & P2) end.
    + intros j m2 Hj P2.
      match type of P2 with winv _ _ _ ?S _ => destruct (winv_down r m val (fun k m => down (cols w) (fun l m =>
         x <- aget2 (plain2 v) m i k ;; y <- aget2 (plain2 w) m j l ;; put2 m r (j + i * rows w)%nat (l + k * cols w)%nat (alpha * x * y)) m) S
         (fun k p q => p = (j + i * rows w)%nat /\ exists l, (l < cols w)%nat /\ q = (l + k * cols w)%nat) (cols v) m2) as (m3 & E3 & P3) end.
      * intros k m3 Hk P3.
        match type of P3 with winv _ _ _ ?S _ => destruct (winv_down r m val (fun l m =>
           x <- aget2 (plain2 v) m i k ;; y <- aget2 (plain2 w) m j l ;; put2 m r (j + i * rows w)%nat (l + k * cols w)%nat (alpha * x * y)) S
           (fun l p q => p = (j + i * rows w)%nat /\ q = (l + k * cols w)%nat) (cols w) m3) as (m4 & E4 & P4) end.
        -- intros l m4 Hl P4. rewrite (r2_plain r m v a Dv Hv m4 i k Hi Hk (proj1 P4)). rewrite (r2_plain r m w b Dw Hw m4 j l Hj Hl (proj1 P4)). cbn [bind].
           replace (alpha * a i k * b j l) with (val (j + i * rows w)%nat (l + k * cols w)%nat)
             by (unfold val; destruct (DM i j _ Hj) as [-> ->]; destruct (DM k l _ Hl) as [-> ->]; reflexivity).
           destruct (winv_put r m val _ m4 (j + i * rows w)%nat (l + k * cols w)%nat W P4) as (m5 & E5 & P5); [rewrite Er; apply B; assumption|rewrite Ec; apply B; assumption|].
           exists m5. split; [exact E5|exact P5].
        -- exact P3.
        -- exists m4. split; [exact E4|]. apply (winv_ext _ _ _ _ _ _ P4). intros p q _ _. split.
           ++ intros [?|(l & ? & ? & ?)]; [left; assumption|right; split; [assumption|exists l; auto]].
           ++ intros [?|[? (l & ? & ?)]]; [left; assumption|right; exists l; auto].
      * exact P2.
      * exists m3. split; [exact E3|]. apply (winv_ext _ _ _ _ _ _ P3). intros p q _ Hq. split.
        -- intros [?|(k & ? & ? & ?)]; [left; assumption|right; assumption].
        -- intros [?|?]; [left; assumption|]. right. rewrite Ec in Hq. destruct (Nat.eq_dec (cols w) 0) as [Z0|NZ]; [rewrite Z0, Nat.mul_0_r in Hq; lia|].
           exists (q / cols w)%nat. split; [apply Nat.div_lt_upper_bound; [assumption|rewrite Nat.mul_comm; assumption]|]. split; [assumption|].
           exists (q mod cols w)%nat. split; [apply Nat.mod_upper_bound; assumption|]. rewrite (Nat.div_mod q (cols w)) at 1 by assumption. rewrite (Nat.mul_comm (cols w)). apply Nat.add_comm.
    + exact P1.
    + exists m2. split; [exact E2|]. apply (winv_ext _ _ _ _ _ _ P2). intros p q _ _. reflexivity.
  - apply winv_nil.
  - exists m'. split; [exact E|]. split; [apply only2_off; exact O|]. intros i j k l Hi Hj Hk Hl.
    replace (i * rows w + j)%nat with (j + i * rows w)%nat by lia. replace (k * cols w + l)%nat with (l + k * cols w)%nat by lia.
    destruct (P (j + i * rows w)%nat (l + k * cols w)%nat) as [P1 _]; [rewrite Er; apply B; assumption|rewrite Ec; apply B; assumption|].
    rewrite P1; [|right; exists i; split; [assumption|exists j; auto]]. unfold val. destruct (DM i j _ Hj) as [-> ->]. destruct (DM k l _ Hl) as [-> ->]. reflexivity.
Qed.
Lemma prod_mm_ok h r (a b : arg2) x y m : wf2 m r -> rows r = arows a -> cols r = acols b -> acols a = arows b -> r2 r m a x -> r2 r m b y ->
  exists m', assign_prod conj h r a b m = Some m' /\ only2 r m m' /\ holds2 m' r (fun i j => sum (fun k => x i k * (if h then conj (y k j) else y k j)) (acols a)).
Proof.
  intros W Er Ec Ek Ra Rb. unfold assign_prod, prod_mm. rewrite <- Er, <- Ec, !assert_true by (apply Nat.eqb_refl).
  match goal with |- exists m', loop (fun i m => loop (fun j m => @?G i j m) _ _ m) _ _ _ = _ /\ _ /\ holds2 _ _ ?V => destruct (nest_up r m V G W) as (m' & E & O & H) end.
  - intros i j m1 Hi Hj O1 _. cbv beta. rewrite (acc_loop _ (fun k => x i k * (if h then conj (y k j) else y k j))).
    + cbn [bind]. f_equal. ring.
    + intros k s Hk. rewrite Ra, Rb by (lia || assumption). reflexivity.
  - exists m'. split; [exact E|]. split; [apply only2_off; exact O|exact H].
Qed.
Lemma r2_trans out m0 a x : r2 out m0 a x -> r2 out m0 (trans2 a) (fun i j => x j i).
Proof. intros R m i j Hi Hj O. cbn in *. apply R; assumption. Qed.

(** Vectors as destinations. *)
Definition disjoint12 (a : block1) (b : block2) : Prop := forall k i j, (k < len a)%nat -> (i < rows b)%nat -> (j < cols b)%nat -> addr1 a k <> addr2 b i j.
Lemma holds2_off1 out inp x m0 m : disjoint21 inp out -> off1 out m0 m -> holds2 m0 inp x -> holds2 m inp x.
Proof. intros D [O _] H i j Hi Hj. rewrite O; [apply H; assumption|]. intros k Hk e. apply (D i j k Hi Hj Hk). exact e. Qed.
Lemma prod_mv_ok r a b x y m : wf1 m r -> len r = rows a -> cols a = len b -> disjoint21 a r -> disjoint1 r b -> holds2 m a x -> holds1 m b y ->
  exists m', prod_matvec r a b m = Some m' /\ only1 r m m' /\ holds1 m' r (fun i => sum (fun k => x i k * y k) (cols a)).
Proof.
  intros W Er Ek Da Db Ha Hb. unfold prod_matvec. rewrite Ek, Er, !assert_true by (apply Nat.eqb_refl). unfold prod_mv. rewrite Er.
  match goal with |- exists m', loop ?G 0 _ _ = _ /\ _ /\ holds1 _ _ ?V => destruct (writes1 r (rows a) V G m W ltac:(lia)) as (m' & E & O & H) end.
  - intros i m1 Hi O1. rewrite (acc_loop _ (fun k => x i k * y k)).
    + cbn [bind acols plain2]. f_equal. rewrite Ek. ring.
    + intros k s Hk. cbn [acols plain2 aget2 plain1 aget1] in *. rewrite get2_ok, get1_ok by lia.
      rewrite (holds2_off1 r a x m m1 Da O1 Ha i k) by lia. rewrite (holds1_off r b y m m1 Db O1 Hb k) by lia. reflexivity.
  - exists m'. split; [exact E|]. split; [apply only1_off; exact O|]. intros i Hi. rewrite H by exact Hi. destruct (Nat.ltb_spec i (rows a)); [reflexivity|lia].
Qed.
Lemma prod_vm_ok r a b x y m : wf1 m r -> len r = cols b -> len a = rows b -> disjoint1 r a -> disjoint21 b r -> holds1 m a x -> holds2 m b y ->
  exists m', prod_vecmat r a b m = Some m' /\ only1 r m m' /\ holds1 m' r (fun j => sum (fun k => x k * y k j) (len a)).
Proof.
  intros W Er Ek Da Db Ha Hb. unfold prod_vecmat. rewrite Ek, Er, !assert_true by (apply Nat.eqb_refl). unfold prod_vm. rewrite Er. cbn [arows plain2].
  match goal with |- exists m', loop ?G 0 _ _ = _ /\ _ /\ holds1 _ _ ?V => destruct (writes1 r (cols b) V G m W ltac:(lia)) as (m' & E & O & H) end.
  - intros i m1 Hi O1. rewrite (acc_loop _ (fun k => x k * y k i)).
    + cbn [bind]. f_equal. ring.
    + intros k s Hk. cbn [acols plain2 aget2 plain1 aget1] in *. rewrite get2_ok, get1_ok by lia.
      rewrite (holds2_off1 r b y m m1 Db O1 Hb k i) by lia. rewrite (holds1_off r a x m m1 Da O1 Ha k) by lia. reflexivity.
  - exists m'. split; [exact E|]. split; [apply only1_off; exact O|]. intros i Hi. rewrite H by exact Hi. destruct (Nat.ltb_spec i (cols b)); [reflexivity|lia].
Qed.
(** A vector as a matrix with one row. *)
Definition as_row (b : block1) : block2 := {| rows := 1; cols := len b; addr2 := fun _ j => addr1 b j; blk := 0 |}.
Lemma as_row_wf m b : wf1 m b -> wf2 m (as_row b).
Proof.
  intros [A I]. split; cbn.
  - intros i j _ Hj. apply A. exact Hj.
  - intros i j i' j' Hi Hj Hi' Hj' e. split; [lia|]. apply I; assumption.
Qed.
Lemma cumsum1_ok v w x m : wf1 m w -> len v = len w -> apart_or_same1 w v -> holds1 m v x ->
  exists m', cumsum1 v w m = Some m' /\ only1 w m m' /\ holds1 m' w (fun i => sum x (S i)).
Proof.
  intros W L AS H. unfold cumsum1. rewrite L, assert_true by (apply Nat.eqb_refl).
  destruct (nest_cumsum (as_row w) m (fun _ j => sum x (S j)) (as_row v) (fun _ => x) false 1 (len w)) as (m' & E & O & P); cbn [rows cols as_row]; try lia; auto.
  - apply as_row_wf. exact W.
  - intros i j Hi Hj. apply H. exact Hj.
  - intros i j k l Hi Hj Hk Hl e. split; [cbn in *; lia|]. apply AS; assumption.
  - exists m'. split; [|split].
    + rewrite <- E. cbn [loop]. unfold get2, put2. cbn [as_row rows cols addr2 Nat.ltb Nat.leb bind]. 
      match goal with |- _ = (s <- ?X ;; Some s) => transitivity X; [reflexivity|destruct X; reflexivity] end.
    + intros a Ha. apply (proj1 O). intros i j Hi Hj e. apply (Ha j Hj). symmetry. exact e.
    + intros i Hi. apply (P 0%nat i); [apply Nat.lt_0_1|exact Hi].
Qed.
Lemma cumsum2_ok d v w x m : (d < 2)%nat -> wf2 m w -> rows v = rows w -> cols v = cols w -> apart_or_same2 w v -> holds2 m v x ->
  exists m', cumsum2 d v w m = Some m' /\ only2 w m m' /\ holds2 m' w (fun i j => if (d =? 0)%nat then sum (fun t => x i t) (S j) else sum (fun t => x t j) (S i)).
Proof.
  intros Hd W R C AS H. destruct d as [|[|d]]; [| |lia].
  - destruct (nest_cumsum w m (fun i j => sum (fun t => x i t) (S j)) v x false (rows v) (cols v)) as (m' & E & O & P); auto.
    exists m'. split; [exact E|]. split; [apply only2_off; exact O|exact P].
  - destruct (nest_cumsum w m (fun i j => sum (fun t => x t j) (S i)) v x true (cols v) (rows v)) as (m' & E & O & P); auto.
    exists m'. split; [exact E|]. split; [apply only2_off; exact O|exact P].
Qed.
Lemma modulate_ok expj v nu phi w x m : wf1 m w -> len v = len w -> apart_or_same1 w v -> holds1 m v x ->
  exists m', modulate expj (plain1 v) nu phi w m = Some (of_nat (len w) * nu + phi, m') /\ only1 w m m' /\ holds1 m' w (fun i => x i * expj (of_nat i * nu + phi)).
Proof.
  intros W L AS H. unfold modulate. cbn [alen plain1]. rewrite L, assert_true by (apply Nat.eqb_refl).
  destruct (nest_down (as_row w) m (fun _ i => x i * expj (of_nat i * nu + phi)) (fun _ i m => x <- get1 m v i ;; put1 m w i (x * expj (of_nat i * nu + phi)))) as (m' & E & O & P).
  - apply as_row_wf. exact W.
  - intros i j m1 Hi Hj O1 F. cbn [as_row rows cols addr2] in *.
    assert (G : get1 m1 v j = Some (x j)).
    { rewrite get1_ok by lia. destruct (Z.eq_dec (addr1 w j) (addr1 v j)) as [e|e].
      - rewrite <- e, F, e. apply H. lia.
      - rewrite (proj1 O1); [apply H; lia|]. intros p q Hp Hq e'. cbn [as_row rows cols addr2] in *. assert (q = j) by (apply (AS q j); [assumption|lia|congruence]). congruence. }
    rewrite G. cbn [bind]. unfold put1, put2. cbn [as_row rows cols addr2]. destruct (Nat.ltb_spec i 1); [|lia]. reflexivity.
  - exists m'. split; [|split].
    + unfold down at 1 in E. cbn [loop rows cols as_row] in E.
      match type of E with (s <- ?X ;; Some s) = _ => destruct X as [m2|] eqn:E2; [|discriminate] end. cbn [bind] in E. injection E as ->.
      cbn [aget1 plain1]. rewrite E2. reflexivity.
    + intros a Ha. apply (proj1 O). intros i j Hi Hj e. apply (Ha j Hj). symmetry. exact e.
    + intros i Hi. apply (P 0%nat i); [apply Nat.lt_0_1|exact Hi].
Qed.
End P.

(** Dense row-major matrices and dense vectors at a base address, for the
    examples. *)
Definition mat_at (base r c : nat) : block2 := {| rows := r; cols := c; addr2 := fun i j => Z.of_nat (base + i * c + j); blk := base |}.
Definition vec_at (base n : nat) : block1 := {| len := n; addr1 := fun i => Z.of_nat (base + i) |}.
Lemma in_mat i j r c : i < r -> j < c -> i * c + j < r * c.
Proof. intros Hi Hj. apply Nat.lt_le_trans with (S i * c); [cbn [Nat.mul]; lia|]. apply Nat.mul_le_mono_r. lia. Qed.
Lemma mem_at {V} (l : list V) (a : nat) : a < length l -> mem_of l (Z.of_nat a) <> None.
Proof. intros H. unfold mem_of. destruct (Z.ltb_spec (Z.of_nat a) 0); [lia|]. rewrite Nat2Z.id. intros E. apply nth_error_None in E. lia. Qed.
Lemma mat_at_wf {V} (l : list V) base r c : base + r * c <= length l -> wf2 (mem_of l) (mat_at base r c).
Proof.
  intros H. split; cbn [rows cols addr2 mat_at].
  - intros i j Hi Hj. pose proof (in_mat i j r c Hi Hj). apply mem_at. lia.
  - intros i j i' j' Hi Hj Hi' Hj' e. apply Nat2Z.inj in e.
    assert (X : forall a b a' b', b < c -> b' < c -> a * c + b = a' * c + b' -> a < a' -> False).
    { intros a b a' b' Hb Hb' E L. assert (S a * c <= a' * c) by (apply Nat.mul_le_mono_r; lia). cbn [Nat.mul] in *. lia. }
    destruct (Nat.lt_trichotomy i i') as [L|[->|L]]; [exfalso; apply (X i j i' j'); auto; lia|split; lia|exfalso; apply (X i' j' i j); auto; lia].
Qed.
Lemma vec_at_wf {V} (l : list V) base n : base + n <= length l -> wf1 (mem_of l) (vec_at base n).
Proof. intros H. split; cbn [len addr1 vec_at]; [intros i Hi; apply mem_at; lia|intros; lia]. Qed.
Lemma mat_at_disjoint base r c base' r' c' : base + r * c <= base' \/ base' + r' * c' <= base -> disjoint2 (mat_at base r c) (mat_at base' r' c').
Proof. intros H i j i' j' Hi Hj Hi' Hj'. cbn [rows cols addr2 mat_at] in *. pose proof (in_mat i j r c Hi Hj). pose proof (in_mat i' j' r' c' Hi' Hj'). lia. Qed.
Lemma mat_vec_disjoint base r c base' n : base + r * c <= base' \/ base' + n <= base -> disjoint21 (mat_at base r c) (vec_at base' n).
Proof. intros H i j k Hi Hj Hk. cbn [rows cols addr2 mat_at len addr1 vec_at] in *. pose proof (in_mat i j r c Hi Hj). lia. Qed.
Lemma vec_at_disjoint base n base' n' : base + n <= base' \/ base' + n' <= base -> disjoint1 (vec_at base n) (vec_at base' n').
Proof. intros H i j Hi Hj. cbn [len addr1 vec_at] in *. lia. Qed.
Lemma holds_mat_at (l : list Z) base r c : base + r * c <= length l -> holds2 (K := Zring) (mem_of l) (mat_at base r c) (fun i j => nth (base + i * c + j) l 0%Z).
Proof.
  intros H i j Hi Hj. cbn [rows cols addr2 mat_at] in *. pose proof (in_mat i j r c Hi Hj). unfold mem_of.
  destruct (Z.ltb_spec (Z.of_nat (base + i * c + j)) 0); [lia|]. rewrite Nat2Z.id. apply nth_error_nth'. lia.
Qed.
