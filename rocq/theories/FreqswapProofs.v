(** Proofs about the frequency swap. *)
From Coq Require Import ZArith List Lia Bool Arith.
From Verif Require Import Base Freqswap.
Import ListNotations.
Local Open Scope nat_scope.

Section F.
Context {V : Type}.
Implicit Types m : mem V.
Definition alloc m m' := forall a, m a <> None -> m' a <> None.
(** Elements of [inp] and [out] share memory only at equal indices. *)
Definition sep (out inp : block1) := forall i j, i < len inp -> j < len out -> addr1 inp i = addr1 out j -> i = j.

Lemma get1_ok m b i : i < len b -> get1 m b i = m (addr1 b i).
Proof. intros H. unfold get1. rewrite (proj2 (Nat.ltb_lt _ _) H). reflexivity. Qed.
Lemma put1_ok m b i v : i < len b -> m (addr1 b i) <> None -> put1 m b i v = Some (mupd m (addr1 b i) v).
Proof. intros H A. unfold put1, mstore. rewrite (proj2 (Nat.ltb_lt _ _) H). destruct (m (addr1 b i)); [reflexivity|congruence]. Qed.
Lemma mupd_same m a v : mupd m a v a = Some v.
Proof. unfold mupd. rewrite Z.eqb_refl. reflexivity. Qed.
Lemma mupd_other m a v x : x <> a -> mupd m a v x = m x.
Proof. intros H. unfold mupd. apply Z.eqb_neq in H. rewrite H. reflexivity. Qed.
Lemma mupd_alloc m a v : alloc m (mupd m a v).
Proof. intros x. unfold mupd. destruct (Z.eqb x a); congruence. Qed.
Lemma alloc_trans m1 m2 m3 : alloc m1 m2 -> alloc m2 m3 -> alloc m1 m3.
Proof. unfold alloc. auto. Qed.
Lemma load_some m a : m a <> None -> exists v, m a = Some v.
Proof. destruct (m a); [eauto|congruence]. Qed.

Lemma halves M : exists H a, M = 2 * H + a /\ a < 2 /\ M / 2 = H /\ M mod 2 = a.
Proof. exists (M / 2), (M mod 2). pose proof (Nat.div_mod M 2). pose proof (Nat.mod_upper_bound M 2). lia. Qed.
Lemma shifted_cases M H a : M = 2 * H + a -> a < 2 ->
  (forall k, k < H -> shifted M k = H + k) /\ (forall t, t < H -> shifted M (H + a + t) = t) /\ (a = 1 -> shifted M H = M - 1).
Proof.
  intros E Ha. assert (D : M / 2 = H). { rewrite E, Nat.mul_comm, Nat.div_add_l, Nat.div_small by lia. lia. }
  unfold shifted. rewrite D. split; [|split].
  - intros k Hk. rewrite Nat.mod_small by lia. lia.
  - intros t Ht. replace (H + a + t + H) with (t + 1 * M) by lia. rewrite Nat.mod_add, Nat.mod_small by lia. reflexivity.
  - intros ->. rewrite Nat.mod_small by lia. lia.
Qed.
Lemma shifted_lt M i : i < M -> shifted M i < M.
Proof. intros H. apply Nat.mod_upper_bound. lia. Qed.
Lemma index_cases M H a i : M = 2 * H + a -> a < 2 -> i < M -> i < H \/ (exists t, t < H /\ i = H + a + t) \/ (a = 1 /\ i = H).
Proof. intros E Ha Hi. destruct (lt_dec i H); [auto|]. destruct (lt_dec i (H + a)); [right; right; lia|]. right; left. exists (i - H - a). lia. Qed.

Lemma swap1_ok out inp m : wf1 m out -> wf1 m inp -> len out = len inp -> 0 < len inp -> sep out inp ->
  exists m', swap1 out inp m = Some m' /\ swapped1 out inp m m' /\ alloc m m'.
Proof.
  intros [Wo Io] [Wi Ii] L Lp S. unfold swap1. destruct (halves (len inp)) as (H & a & EM & Ha & E2 & Em). rewrite E2, Em. clear E2 Em.
  destruct (shifted_cases (len inp) H a EM Ha) as (S1 & S2 & S3). rewrite get1_ok by lia.
  destruct (load_some m (addr1 inp H)) as [mid Emid]; [apply Wi; lia|]. rewrite Emid. cbn [bind].
  match goal with |- exists m', (_ <- loop ?F _ _ _ ;; _) = _ /\ _ =>
    destruct (loop_inv F (fun i m' => alloc m m' /\
      (forall k, k < i -> m' (addr1 out (H + k)) = m (addr1 inp k) /\ m' (addr1 out k) = m (addr1 inp (H + a + k))) /\
      (forall x, (forall k, k < i -> x <> addr1 out k /\ x <> addr1 out (H + k)) -> m' x = m x)) H 0 m) as (m1 & E & A1 & V1 & F1) end.
  - split; [intros x; auto|]. split; [intros; lia|auto].
  - intros i m' Hi (A & Vk & Fr). cbn [Nat.add] in Hi.
    rewrite get1_ok by lia. rewrite (Fr (addr1 inp (H + i + a))) by (intros k Hk; split; intros Ea; apply S in Ea; lia).
    destruct (load_some m (addr1 inp (H + i + a))) as [tmp Et]; [apply Wi; lia|]. rewrite Et. cbn [bind].
    rewrite get1_ok by lia. rewrite (Fr (addr1 inp i)) by (intros k Hk; split; intros Ea; apply S in Ea; lia).
    destruct (load_some m (addr1 inp i)) as [x Ex]; [apply Wi; lia|]. rewrite Ex. cbn [bind].
    rewrite put1_ok by (lia || (apply A, Wo; lia)). cbn [bind]. rewrite put1_ok by (lia || (apply mupd_alloc, A, Wo; lia)).
    eexists. split; [reflexivity|]. split; [|split].
    + eapply alloc_trans; [exact A|]. eapply alloc_trans; apply mupd_alloc.
    + intros k Hk. destruct (Nat.eq_dec k i) as [->|Hne].
      * split; [|rewrite mupd_same; replace (H + a + i) with (H + i + a) by lia; congruence].
        rewrite mupd_other by (intros Ea; apply Io in Ea; lia). rewrite mupd_same. congruence.
      * destruct (Vk k ltac:(lia)) as [K1 K2]. split; rewrite !mupd_other by (intros Ea; apply Io in Ea; lia); assumption.
    + intros y Hy. destruct (Hy i ltac:(lia)). rewrite !mupd_other by assumption. apply Fr. intros k Hk. apply Hy. lia.
  - rewrite E. cbn [bind]. cbn [Nat.add] in *. destruct (Nat.eqb_spec a 0) as [->|Ha0].
    + exists m1. split; [reflexivity|]. split; [|exact A1]. split.
      * intros i Hi. destruct (index_cases _ H 0 i EM Ha Hi) as [Hl | [(t & Ht & ->) | [? _]]]; [| |lia].
        -- rewrite S1 by exact Hl. apply V1. exact Hl.
        -- rewrite S2 by exact Ht. apply V1. exact Ht.
      * intros x Hx. apply F1. intros k Hk. split; apply Hx; lia.
    + assert (a = 1) by lia. subst a. rewrite put1_ok by (lia || (apply A1, Wo; lia)). eexists. split; [reflexivity|]. split; [split|].
      * intros i Hi. destruct (index_cases _ H 1 i EM Ha Hi) as [Hl | [(t & Ht & ->) | [_ ->]]].
        -- rewrite S1 by exact Hl. rewrite mupd_other by (intros Ea; apply Io in Ea; lia). apply V1. exact Hl.
        -- rewrite S2 by exact Ht. rewrite mupd_other by (intros Ea; apply Io in Ea; lia). apply V1. exact Ht.
        -- rewrite S3 by reflexivity. rewrite mupd_same. congruence.
      * intros x Hx. rewrite mupd_other by (apply Hx; lia). apply F1. intros k Hk. split; apply Hx; lia.
      * eapply alloc_trans; [exact A1|apply mupd_alloc].
Qed.

(** A family of separate vectors swapped one after the other. *)
Lemma family_ok n (bo bi : nat -> block1) m (f : nat -> mem V -> option (mem V)) :
  (forall c m, c < n -> f c m = swap1 (bo c) (bi c) m) ->
  (forall c, c < n -> wf1 m (bo c) /\ wf1 m (bi c) /\ len (bo c) = len (bi c) /\ 0 < len (bi c) /\ sep (bo c) (bi c)) ->
  (forall c c', c < n -> c' < n -> c <> c' -> disjoint1 (bo c) (bo c') /\ disjoint1 (bo c) (bi c')) ->
  exists m', loop f 0 n m = Some m' /\ alloc m m' /\
    (forall c i, c < n -> i < len (bi c) -> m' (addr1 (bo c) (shifted (len (bi c)) i)) = m (addr1 (bi c) i)) /\
    (forall a, (forall c i, c < n -> i < len (bo c) -> a <> addr1 (bo c) i) -> m' a = m a).
Proof.
  intros Ef W D.
  destruct (loop_inv f (fun c m' => alloc m m' /\
    (forall c' i, c' < c -> i < len (bi c') -> m' (addr1 (bo c') (shifted (len (bi c')) i)) = m (addr1 (bi c') i)) /\
    (forall a, (forall c' i, c' < c -> i < len (bo c') -> a <> addr1 (bo c') i) -> m' a = m a)) n 0 m) as (m1 & E & A & Vk & Fr).
  - split; [intros a; auto|]. split; [intros; lia|auto].
  - intros c m' [_ Hc] (A & Vk & Fr). cbn [Nat.add] in Hc. destruct (W c Hc) as ([Wo Io] & [Wi Ii] & L & Lp & S).
    destruct (swap1_ok (bo c) (bi c) m') as (m2 & E2 & [V2 F2] & A2); try assumption; try (split; auto; fail).
    rewrite Ef by exact Hc. exists m2. split; [exact E2|]. split; [eapply alloc_trans; eassumption|]. split.
    + intros c' i Hc' Hi. destruct (Nat.eq_dec c' c) as [->|Hne].
      * rewrite V2 by exact Hi. apply Fr. intros c'' j Hc'' Hj Ea. destruct (D c'' c) as [_ D2]; try lia. apply (D2 j i Hj Hi). auto.
      * assert (c' < n) by lia. destruct (W c' ltac:(lia)) as (_ & _ & L' & _). rewrite F2; [apply Vk; [lia|exact Hi]|].
        intros j Hj Ea. destruct (D c c') as [D1 _]; try lia. apply (D1 j (shifted (len (bi c')) i) Hj); [rewrite L'; apply shifted_lt; exact Hi|auto].
    + intros x Hx. rewrite F2 by (intros j Hj; apply Hx; [lia|exact Hj]). apply Fr. intros c' j Hc' Hj. apply Hx; [lia|exact Hj].
  - exists m1. auto.
Qed.

(** Whole-block facts about rows and columns. *)
Definition same_or_disjoint (out inp : block2) : Prop := out = inp \/ disjoint2 inp out.
Lemma rows_ok out inp m n f : (forall c m, c < n -> f c m = swap1 (row out c) (row inp c) m) -> n = rows inp ->
  wf2 m out -> wf2 m inp -> rows out = rows inp -> cols out = cols inp -> 0 < cols inp -> same_or_disjoint out inp ->
  exists m', loop f 0 n m = Some m' /\ alloc m m' /\ swapped_rows out inp m m'.
Proof.
  intros Ef -> [Wo Io] [Wi Ii] R C Cp SD.
  destruct (family_ok (rows inp) (row out) (row inp) m f Ef) as (m' & E & A & Vk & Fr).
  - intros c Hc. cbn. split; [|split; [|split; [|split]]]; try assumption.
    + split; cbn; [intros i Hi; apply Wo; lia|]. intros i i' Hi Hi' Ea. apply Io in Ea; lia.
    + split; cbn; [intros i Hi; apply Wi; lia|]. intros i i' Hi Hi' Ea. apply Ii in Ea; lia.
    + intros i j Hi Hj Ea. cbn in *. destruct SD as [-> | Dj]; [apply Ii in Ea; lia|]. exfalso. apply (Dj c i c j); lia || assumption.
  - intros c c' Hc Hc' Hne. split; intros i j Hi Hj Ea; cbn in *; [apply Io in Ea; lia|].
    destruct SD as [-> | Dj]; [apply Ii in Ea; lia|]. apply (Dj c' j c i); lia || (symmetry; assumption).
  - exists m'. split; [exact E|]. split; [exact A|]. split.
    + intros i j Hi Hj. apply (Vk i j Hi Hj).
    + intros x Hx. apply Fr. intros c i Hc Hi. apply Hx; cbn in Hi; lia.
Qed.
Lemma cols_ok out inp m n f : (forall c m, c < n -> f c m = swap1 (col out c) (col inp c) m) -> n = cols inp ->
  wf2 m out -> wf2 m inp -> rows out = rows inp -> cols out = cols inp -> 0 < rows inp -> same_or_disjoint out inp ->
  exists m', loop f 0 n m = Some m' /\ alloc m m' /\ swapped_cols out inp m m'.
Proof.
  intros Ef -> [Wo Io] [Wi Ii] R C Cp SD.
  destruct (family_ok (cols inp) (col out) (col inp) m f Ef) as (m' & E & A & Vk & Fr).
  - intros c Hc. cbn. split; [|split; [|split; [|split]]]; try assumption.
    + split; cbn; [intros i Hi; apply Wo; lia|]. intros i i' Hi Hi' Ea. apply Io in Ea; lia.
    + split; cbn; [intros i Hi; apply Wi; lia|]. intros i i' Hi Hi' Ea. apply Ii in Ea; lia.
    + intros i j Hi Hj Ea. cbn in *. destruct SD as [-> | Dj]; [apply Ii in Ea; lia|]. exfalso. apply (Dj i c j c); lia || assumption.
  - intros c c' Hc Hc' Hne. split; intros i j Hi Hj Ea; cbn in *; [apply Io in Ea; lia|].
    destruct SD as [-> | Dj]; [apply Ii in Ea; lia|]. apply (Dj j c' i c); lia || (symmetry; assumption).
  - exists m'. split; [exact E|]. split; [exact A|]. split.
    + intros i j Hi Hj. apply (Vk j i Hj Hi).
    + intros x Hx. apply Fr. intros c i Hc Hi. apply Hx; cbn in Hi; lia.
Qed.

Lemma swap2_same_ok b m : wf2 m b -> 0 < rows b -> 0 < cols b -> exists m', swap2_same b b m = Some m' /\ swapped2 b b m m'.
Proof.
  intros W R C. unfold swap2_same.
  destruct (rows_ok b b m (rows b) (fun i m => swap1 (row b i) (row b i) m)) as (m1 & E1 & A1 & V1 & F1); auto; [left; reflexivity|].
  rewrite E1. cbn [bind]. destruct W as [Wa Wi].
  destruct (cols_ok b b m1 (cols b) (fun i m => swap1 (col b i) (col b i) m)) as (m2 & E2 & A2 & V2 & F2); auto; try (split; auto; fail); [left; reflexivity|].
  exists m2. split; [exact E2|]. split.
  - intros i j Hi Hj. rewrite V2 by (try apply shifted_lt; assumption). apply V1; assumption.
  - intros a Ha. rewrite F2, F1; auto.
Qed.

(** Out of place: every write puts the right value into its cell. *)
Section Other.
Variables (out inp : block2) (m0 : mem V).
Hypothesis Wo : wf2 m0 out.
Hypothesis Wi : wf2 m0 inp.
Hypothesis R : rows out = rows inp.
Hypothesis C : cols out = cols inp.
Hypothesis Dj : disjoint2 inp out.
(** The cell (p, q) holds its final value: that of the element it receives. *)
Definition final (m : mem V) (p q : nat) : Prop :=
  forall i j, i < rows inp -> j < cols inp -> shifted (rows inp) i = p -> shifted (cols inp) j = q -> m (addr2 out p q) = m0 (addr2 inp i j).
Definition inv (S : nat -> nat -> Prop) (m : mem V) : Prop :=
  alloc m0 m /\ (forall a, (forall i j, i < rows out -> j < cols out -> a <> addr2 out i j) -> m a = m0 a) /\ (forall p q, p < rows out -> q < cols out -> S p q -> final m p q).

Lemma shifted_inj M i j : i < M -> j < M -> shifted M i = shifted M j -> i = j.
Proof.
  intros Hi Hj E. destruct (halves M) as (H & a & EM & Ha & _). destruct (shifted_cases M H a EM Ha) as (S1 & S2 & S3).
  assert (X : forall i, i < M -> (i < H /\ shifted M i = H + i) \/ (H + a <= i /\ shifted M i + H + a = i /\ shifted M i < H) \/ (i = H /\ a = 1 /\ shifted M i = 2 * H)).
  { intros k Hk. destruct (index_cases M H a k EM Ha Hk) as [A | [(t & A & ->) | [A ->]]].
    - left. split; [exact A|]. apply S1. exact A.
    - right; left. rewrite (S2 t A). lia.
    - right; right. rewrite (S3 A). lia. }
  pose proof (X i Hi). pose proof (X j Hj). lia.
Qed.
Lemma write S m i j p q : inv S m -> i < rows inp -> j < cols inp -> shifted (rows inp) i = p -> shifted (cols inp) j = q ->
  exists x m', get2 m inp i j = Some x /\ (forall m1, inv S m1 -> get2 m1 inp i j = Some x) /\
    (forall m1 S1, inv S1 m1 -> exists m2, put2 m1 out p q x = Some m2 /\ inv (fun p' q' => S1 p' q' \/ (p' = p /\ q' = q)) m2) /\ m' = m.
Proof.
  intros (A & Fr & Fn) Hi Hj Ep Eq.
  assert (G : forall S1 m1, inv S1 m1 -> get2 m1 inp i j = m0 (addr2 inp i j)).
  { intros S1 m1 (A1 & Fr1 & _). unfold get2. rewrite (proj2 (Nat.ltb_lt _ _) Hi), (proj2 (Nat.ltb_lt _ _) Hj). unfold mload. apply Fr1.
    intros i' j' Hi' Hj'. apply Dj; auto. }
  destruct (load_some m0 (addr2 inp i j)) as [x Ex]; [apply Wi; auto|]. exists x, m. split; [rewrite (G S m) by (split; auto); exact Ex|]. split; [|split; [|reflexivity]].
  - intros m1 I1. rewrite (G S m1 I1). exact Ex.
  - intros m1 S1 (A1 & Fr1 & Fn1). assert (Hp : p < rows out) by (rewrite R, <- Ep; apply shifted_lt; exact Hi). assert (Hq : q < cols out) by (rewrite C, <- Eq; apply shifted_lt; exact Hj).
    unfold put2. rewrite (proj2 (Nat.ltb_lt _ _) Hp), (proj2 (Nat.ltb_lt _ _) Hq). unfold mstore.
    destruct (m1 (addr2 out p q)) as [y|] eqn:Ey; [|exfalso; apply (A1 (addr2 out p q)); [apply Wo; auto|exact Ey]].
    exists (mupd m1 (addr2 out p q) x). split; [reflexivity|]. split; [|split].
    + eapply alloc_trans; [exact A1|apply mupd_alloc].
    + intros a Ha. rewrite mupd_other by (apply Ha; auto). apply Fr1. exact Ha.
    + intros p' q' Hp' Hq' HS i' j' Hi' Hj' Ep' Eq'. destruct (Nat.eq_dec p' p) as [Epp|]; [destruct (Nat.eq_dec q' q) as [Eqq|]|].
      * rewrite Epp, Eqq, mupd_same. assert (i' = i) by (apply (shifted_inj (rows inp)); congruence). assert (j' = j) by (apply (shifted_inj (cols inp)); congruence). subst i' j'. congruence.
      * rewrite mupd_other by (intros Ea; apply Wo in Ea; lia). apply Fn1; auto. destruct HS as [HS | [? ?]]; [exact HS|lia].
      * rewrite mupd_other by (intros Ea; apply Wo in Ea; lia). apply Fn1; auto. destruct HS as [HS | [? ?]]; [exact HS|lia].
Qed.
Lemma rd S m i j : inv S m -> i < rows inp -> j < cols inp -> get2 m inp i j = m0 (addr2 inp i j).
Proof.
  intros (A & Fr & Fn) Hi Hj. unfold get2. rewrite (proj2 (Nat.ltb_lt _ _) Hi), (proj2 (Nat.ltb_lt _ _) Hj). apply Fr. intros i' j' Hi' Hj'. apply Dj; auto.
Qed.
Lemma wr S m i j p q x : inv S m -> i < rows inp -> j < cols inp -> shifted (rows inp) i = p -> shifted (cols inp) j = q -> m0 (addr2 inp i j) = Some x ->
  exists m', put2 m out p q x = Some m' /\ inv (fun p' q' => S p' q' \/ (p' = p /\ q' = q)) m'.
Proof.
  intros I Hi Hj Ep Eq Ex. destruct (write S m i j p q I Hi Hj Ep Eq) as (x' & _ & G & _ & P & _). rewrite (rd S m i j I Hi Hj), Ex in G. injection G as <-. apply P. exact I.
Qed.
Lemma inv_ext (S S' : nat -> nat -> Prop) m : inv S m -> (forall p q, p < rows out -> q < cols out -> S' p q -> S p q) -> inv S' m.
Proof. intros (A & B & D) H. split; [exact A|]. split; [exact B|]. intros p q Hp Hq HS. apply D; auto. Qed.
Lemma inv_loop f n (T : nat -> nat -> nat -> Prop) S m : inv S m ->
  (forall i S m, i < n -> inv S m -> exists m', f i m = Some m' /\ inv (fun p q => S p q \/ T i p q) m') ->
  exists m', loop f 0 n m = Some m' /\ inv (fun p q => S p q \/ exists i, i < n /\ T i p q) m'.
Proof.
  intros I Hf. destruct (loop_inv f (fun i m' => inv (fun p q => S p q \/ exists k, k < i /\ T k p q) m') n 0 m) as (m' & E & P).
  - eapply inv_ext; [exact I|]. intros p q _ _ [H | (k & Hk & _)]; [exact H|lia].
  - intros i m1 Hi I1. destruct (Hf i _ m1 (proj2 Hi) I1) as (m2 & E2 & I2). exists m2. split; [exact E2|]. eapply inv_ext; [exact I2|].
    intros p q _ _ [H | (k & Hk & HT)]; [auto|]. destruct (Nat.eq_dec k i) as [->|]; [auto|]. left. right. exists k. split; [lia|exact HT].
  - exists m'. auto.
Qed.

Lemma swap2_other_ok : exists m', swap2_other out inp m0 = Some m' /\ swapped2 out inp m0 m'.
Proof.
  unfold swap2_other. destruct (halves (rows inp)) as (H & a & EM & Ha & EMd & EMm). destruct (halves (cols inp)) as (G & b & EN & Hb & ENd & ENm).
  rewrite EMd, EMm, ENd, ENm. clear EMd EMm ENd ENm. destruct (shifted_cases (rows inp) H a EM Ha) as (S1 & S2 & S3). destruct (shifted_cases (cols inp) G b EN Hb) as (T1 & T2 & T3).
  assert (LD : forall i j, i < rows inp -> j < cols inp -> exists x, m0 (addr2 inp i j) = Some x) by (intros i j Hi Hj; apply load_some, Wi; auto).
  assert (I0 : inv (fun _ _ => False) m0) by (split; [intros x; auto|split; [auto|tauto]]).
  match goal with |- exists m', (_ <- loop ?F _ _ _ ;; _) = _ /\ _ =>
    destruct (inv_loop F H (fun i p q => (p = i \/ p = H + i) /\ q < 2 * G) _ m0 I0) as (m1 & E1 & I1) end.
  { intros i S m Hi I.
    match goal with |- exists m', loop ?F _ _ _ = _ /\ _ =>
      destruct (inv_loop F G (fun j p q => (p = i \/ p = H + i) /\ (q = j \/ q = G + j)) S m I) as (m1 & E1 & I1) end.
    - clear S m I. intros j S m Hj I.
      destruct (LD (H + i + a) (G + j + b)) as [x1 X1]; try lia. destruct (LD i j) as [x2 X2]; try lia.
      destruct (LD (H + i + a) j) as [x3 X3]; try lia. destruct (LD i (G + j + b)) as [x4 X4]; try lia.
      rewrite (rd _ _ _ _ I), X1 by lia. cbn [bind]. rewrite (rd _ _ _ _ I), X2 by lia. cbn [bind].
      destruct (wr _ m i j (H + i) (G + j) x2 I) as (m1 & -> & I1); auto; try lia. cbn [bind].
      destruct (wr _ m1 (H + i + a) (G + j + b) i j x1 I1) as (m2 & -> & I2); auto; try lia.
      { replace (H + i + a) with (H + a + i) by lia. apply S2. exact Hi. } { replace (G + j + b) with (G + b + j) by lia. apply T2. exact Hj. }
      cbn [bind]. rewrite (rd _ _ _ _ I2), X3 by lia. cbn [bind]. rewrite (rd _ _ _ _ I2), X4 by lia. cbn [bind].
      destruct (wr _ m2 i (G + j + b) (H + i) j x4 I2) as (m3 & -> & I3); auto; try lia.
      { replace (G + j + b) with (G + b + j) by lia. apply T2. exact Hj. }
      cbn [bind]. destruct (wr _ m3 (H + i + a) j i (G + j) x3 I3) as (m4 & -> & I4); auto; try lia.
      { replace (H + i + a) with (H + a + i) by lia. apply S2. exact Hi. }
      exists m4. split; [reflexivity|]. eapply inv_ext; [exact I4|]. cbn. intros p q _ _ HS. clear - HS. intuition (subst; auto).
    - exists m1. split; [exact E1|]. eapply inv_ext; [exact I1|]. cbn. intros p q _ _ [HS | [Hp Hq]]; [auto|]. right.
      destruct (lt_dec q G); [exists q; auto|]. exists (q - G). split; [lia|]. split; [exact Hp|]. right. lia. }
  rewrite E1. cbn [bind].
  assert (X2 : exists m2, (if a =? 0 then Some m1 else loop (fun j m => x <- get2 m inp H j;; m <- put2 m out (rows inp - 1) (G + j) x;; x <- get2 m inp H (G + j + b);; put2 m out (rows inp - 1) j x) 0 G m1) = Some m2
     /\ inv (fun p q => p < rows inp /\ q < 2 * G) m2).
  { destruct (Nat.eqb_spec a 0) as [Ea|Ea].
    - exists m1. split; [reflexivity|]. eapply inv_ext; [exact I1|]. cbn. intros p q _ _ [Hp Hq]. right.
      destruct (lt_dec p H); [exists p; auto|]. exists (p - H). split; [lia|]. split; [right; lia|exact Hq].
    - assert (a = 1) by lia. subst a.
      match goal with |- exists m', loop ?F _ _ _ = _ /\ _ =>
        destruct (inv_loop F G (fun j p q => p = rows inp - 1 /\ (q = j \/ q = G + j)) _ m1 I1) as (m2 & E2 & I2) end.
      + clear - LD S3 T1 T2 Wo Wi R C Dj EM EN. intros j S m Hj I. destruct (LD H j) as [x1 X1]; try lia. destruct (LD H (G + j + b)) as [x2 X2]; try lia.
        rewrite (rd _ _ _ _ I), X1 by lia. cbn [bind]. destruct (wr _ m H j (rows inp - 1) (G + j) x1 I) as (m1 & -> & I1); auto; try lia. cbn [bind].
        rewrite (rd _ _ _ _ I1), X2 by lia. cbn [bind]. destruct (wr _ m1 H (G + j + b) (rows inp - 1) j x2 I1) as (m2 & -> & I2); auto; try lia.
        { replace (G + j + b) with (G + b + j) by lia. apply T2. exact Hj. }
        exists m2. split; [reflexivity|]. eapply inv_ext; [exact I2|]. cbn. intros p q _ _ HS. clear - HS. intuition (subst; auto).
      + exists m2. split; [exact E2|]. eapply inv_ext; [exact I2|]. cbn. intros p q _ _ [Hp Hq].
        destruct (lt_dec p H); [left; right; exists p; auto|]. destruct (lt_dec p (2 * H)); [left; right; exists (p - H); split; [lia|]; split; [right; lia|exact Hq]|].
        right. destruct (lt_dec q G); [exists q; split; [lia|]; split; [lia|auto]|]. exists (q - G). split; [lia|]. split; [lia|right; lia]. }
  destruct X2 as (m2 & -> & I2). cbn [bind].
  assert (X3 : exists m3, (if b =? 0 then Some m2 else loop (fun i m => x <- get2 m inp i G;; m <- put2 m out (H + i) (cols inp - 1) x;; x <- get2 m inp (H + i + a) G;; put2 m out i (cols inp - 1) x) 0 H m2) = Some m3
     /\ inv (fun p q => (p < rows inp /\ q < 2 * G) \/ (p < 2 * H /\ q < cols inp)) m3).
  { destruct (Nat.eqb_spec b 0) as [Eb|Eb].
    - exists m2. split; [reflexivity|]. eapply inv_ext; [exact I2|]. cbn. intros p q _ _ [? | [Hp Hq]]; [auto|lia].
    - assert (b = 1) by lia. subst b.
      match goal with |- exists m', loop ?F _ _ _ = _ /\ _ =>
        destruct (inv_loop F H (fun i p q => q = cols inp - 1 /\ (p = i \/ p = H + i)) _ m2 I2) as (m3 & E3 & I3) end.
      + clear - LD S1 S2 T3 Wo Wi R C Dj EM EN. intros i S m Hi I. destruct (LD i G) as [x1 X1]; try lia. destruct (LD (H + i + a) G) as [x2 X2]; try lia.
        rewrite (rd _ _ _ _ I), X1 by lia. cbn [bind]. destruct (wr _ m i G (H + i) (cols inp - 1) x1 I) as (m1 & -> & I1); auto; try lia. cbn [bind].
        rewrite (rd _ _ _ _ I1), X2 by lia. cbn [bind]. destruct (wr _ m1 (H + i + a) G i (cols inp - 1) x2 I1) as (m2 & -> & I2); auto; try lia.
        { replace (H + i + a) with (H + a + i) by lia. apply S2. exact Hi. }
        exists m2. split; [reflexivity|]. eapply inv_ext; [exact I2|]. cbn. intros p q _ _ HS. clear - HS. intuition (subst; auto).
      + exists m3. split; [exact E3|]. eapply inv_ext; [exact I3|]. cbn. intros p q _ _ [[Hp Hq] | [Hp Hq]]; [auto|].
        destruct (lt_dec q (2 * G)); [left; lia|]. right. destruct (lt_dec p H); [exists p; split; [lia|]; split; [lia|auto]|]. exists (p - H). split; [lia|]. split; [lia|right; lia]. }
  destruct X3 as (m3 & -> & I3). cbn [bind].
  assert (X4 : exists m4, (if (a =? 0) || (b =? 0) then Some m3 else x <- get2 m3 inp H G;; put2 m3 out (rows inp - 1) (cols inp - 1) x) = Some m4 /\ inv (fun _ _ => True) m4).
  { destruct ((a =? 0) || (b =? 0)) eqn:Eab.
    - exists m3. split; [reflexivity|]. eapply inv_ext; [exact I3|]. cbn. intros p q Hp Hq _. apply orb_prop in Eab. rewrite !Nat.eqb_eq in Eab. lia.
    - apply orb_false_iff in Eab. rewrite !Nat.eqb_neq in Eab. assert (a = 1) by lia. assert (b = 1) by lia. subst a b.
      destruct (LD H G) as [x X]; try lia. rewrite (rd _ _ _ _ I3), X by lia. cbn [bind].
      destruct (wr _ m3 H G (rows inp - 1) (cols inp - 1) x I3) as (m4 & -> & I4); auto; try lia.
      exists m4. split; [reflexivity|]. eapply inv_ext; [exact I4|]. cbn. intros p q Hp Hq _. lia. }
  destruct X4 as (m4 & -> & (A4 & F4 & V4)). exists m4. split; [reflexivity|]. split; [|exact F4].
  intros i j Hi Hj. apply (V4 (shifted (rows inp) i) (shifted (cols inp) j)); auto; [rewrite R | rewrite C]; apply shifted_lt; assumption.
Qed.
End Other.

Theorem vector_ok out inp m : wf1 m out -> wf1 m inp -> len out = len inp -> 0 < len inp -> out = inp \/ disjoint1 inp out ->
  exists m', swap1 out inp m = Some m' /\ swapped1 out inp m m'.
Proof.
  intros Wo Wi L Lp SD. destruct (swap1_ok out inp m) as (m' & E & S & _); auto.
  - intros i j Hi Hj Ea. destruct SD as [-> | Dj]; [apply Wi in Ea; auto|]. exfalso. apply (Dj i j); auto.
  - eauto.
Qed.
Theorem matrix_in_place b m : wf2 m b -> 0 < rows b -> 0 < cols b -> exists m', swap2 b b m = Some m' /\ swapped2 b b m m'.
Proof. intros W R C. unfold swap2, is_same_block. rewrite Nat.eqb_refl. apply swap2_same_ok; auto. Qed.
Theorem matrix_out_of_place out inp m : wf2 m out -> wf2 m inp -> rows out = rows inp -> cols out = cols inp -> blk inp <> blk out -> disjoint2 inp out ->
  exists m', swap2 out inp m = Some m' /\ swapped2 out inp m m'.
Proof. intros Wo Wi R C N D. unfold swap2, is_same_block. rewrite (proj2 (Nat.eqb_neq _ _) N). apply swap2_other_ok; auto. Qed.
Theorem axis_row out inp m : wf2 m out -> wf2 m inp -> rows out = rows inp -> cols out = cols inp -> 0 < cols inp -> out = inp \/ disjoint2 inp out ->
  exists m', swap_axis true out inp m = Some m' /\ swapped_rows out inp m m'.
Proof.
  intros Wo Wi R C Cp SD. unfold swap_axis. rewrite R, C, !Nat.eqb_refl.
  destruct (rows_ok out inp m (rows inp) (fun r m => swap1 (row out r) (row inp r) m)) as (m' & E & _ & S); auto. eauto.
Qed.
Theorem axis_col out inp m : wf2 m out -> wf2 m inp -> rows out = rows inp -> cols out = cols inp -> rows inp = cols inp -> 0 < cols inp -> out = inp \/ disjoint2 inp out ->
  exists m', swap_axis false out inp m = Some m' /\ swapped_cols out inp m m'.
Proof.
  intros Wo Wi R C Sq Cp SD. unfold swap_axis. rewrite R, C, !Nat.eqb_refl.
  destruct (cols_ok out inp m (rows inp) (fun c m => assert (c <? cols inp) ;; swap1 (col out c) (col inp c) m)) as (m' & E & _ & S); auto; try lia; [|eauto].
  intros c m1 Hc. rewrite (proj2 (Nat.ltb_lt _ _)) by lia. reflexivity.
Qed.
Theorem twice n i : i < n -> n mod 2 = 0 -> shifted n (shifted n i) = i.
Proof.
  intros Hi E. destruct (halves n) as (H & a & EM & Ha & _ & Em). assert (a = 0) by lia. clear Em. subst a. destruct (shifted_cases n H 0 EM Ha) as (S1 & S2 & _).
  destruct (index_cases n H 0 i EM Ha Hi) as [A | [(t & A & ->) | [? _]]]; [| |lia].
  - rewrite (S1 i A). replace (H + i) with (H + 0 + i) by lia. apply S2. exact A.
  - rewrite (S2 t A), (S1 t A). lia.
Qed.
Lemma pre_image n p : p < n -> exists i, i < n /\ shifted n i = p.
Proof.
  intros Hp. destruct (halves n) as (H & a & EM & Ha & _). destruct (shifted_cases n H a EM Ha) as (S1 & S2 & S3).
  destruct (lt_dec p H); [exists (H + a + p); split; [lia|]; apply S2; assumption|]. destruct (lt_dec p (2 * H)).
  - exists (p - H). split; [lia|]. rewrite S1 by lia. lia.
  - exists H. split; [lia|]. rewrite S3; lia.
Qed.
Theorem twice_vector b m : wf1 m b -> 0 < len b -> len b mod 2 = 0 ->
  exists m1 m2, swap1 b b m = Some m1 /\ swap1 b b m1 = Some m2 /\ forall a, m2 a = m a.
Proof.
  intros W Lp E. assert (S : sep b b) by (intros i j Hi Hj Ea; apply W in Ea; auto).
  destruct (swap1_ok b b m W W eq_refl Lp S) as (m1 & E1 & [V1 F1] & A1).
  assert (W1 : wf1 m1 b) by (destruct W as [Wa Wi]; split; [intros i Hi; apply A1, Wa, Hi|exact Wi]).
  destruct (swap1_ok b b m1 W1 W1 eq_refl Lp S) as (m2 & E2 & [V2 F2] & A2). exists m1, m2. split; [exact E1|]. split; [exact E2|].
  intros a. assert (D : (exists i, i < len b /\ a = addr1 b i) \/ forall i, i < len b -> a <> addr1 b i).
  { clear. induction (len b) as [|n IH]; [right; lia|]. destruct IH as [(i & Hi & ->) | N]; [left; exists i; auto|].
    destruct (Z.eq_dec a (addr1 b n)) as [->|Hne]; [left; exists n; auto|]. right. intros i Hi. destruct (Nat.eq_dec i n) as [->|]; [exact Hne|apply N; lia]. }
  destruct D as [(i & Hi & ->) | N]; [|rewrite F2, F1; auto].
  rewrite <- (twice (len b) i Hi E) at 1. rewrite V2 by (apply shifted_lt; exact Hi). apply V1. exact Hi.
Qed.
Theorem twice_matrix b m : wf2 m b -> 0 < rows b -> 0 < cols b -> rows b mod 2 = 0 -> cols b mod 2 = 0 ->
  exists m1 m2, swap2 b b m = Some m1 /\ swap2 b b m1 = Some m2 /\
    (forall i j, i < rows b -> j < cols b -> m2 (addr2 b i j) = m (addr2 b i j)) /\
    (forall a, (forall i j, i < rows b -> j < cols b -> a <> addr2 b i j) -> m2 a = m a).
Proof.
  intros W R C Er Ec. destruct (matrix_in_place b m W R C) as (m1 & E1 & V1 & F1).
  assert (W1 : wf2 m1 b).
  { destruct W as [Wa Wi]. split; [|exact Wi]. intros p q Hp Hq. destruct (pre_image _ p Hp) as (i & Hi & <-). destruct (pre_image _ q Hq) as (j & Hj & <-). rewrite V1 by assumption. apply Wa; assumption. }
  destruct (matrix_in_place b m1 W1 R C) as (m2 & E2 & V2 & F2). exists m1, m2. split; [exact E1|]. split; [exact E2|]. split.
  - intros i j Hi Hj. rewrite <- (twice (rows b) i Hi Er) at 1. rewrite <- (twice (cols b) j Hj Ec) at 1.
    rewrite V2 by (apply shifted_lt; assumption). apply V1; assumption.
  - intros a Ha. rewrite F2, F1; auto.
Qed.
End F.
