(** Proofs about sub-views. *)
From Coq Require Import ZArith List Lia Bool.
From Verif Require Import Base Domain DomainProofs Layout LayoutProofs Views.
Import ListNotations.
Open Scope Z_scope.

Lemma in_range_at f n i : in_range (map f (seq 0 n)) i <->
  length i = n /\ forall d, (d < n)%nat -> 0 <= at_ i d < f d.
Proof.
  unfold in_range, at_. assert (G : forall s, Forall2 (fun x m => 0 <= x < m) i (map f (seq s n)) <->
     length i = n /\ forall d, (d < n)%nat -> 0 <= nth d i 0 < f (s + d)%nat).
  { revert i. induction n as [|n IH]; intros i s; cbn [seq map].
    - split; [intros H; inversion H; subst; split; [reflexivity|intros; lia]|].
      intros [H _]. destruct i; [constructor|discriminate].
    - split.
      + intros H. inversion H as [|x m i' ? Hx Hi]; subst. apply IH in Hi as [L Hi]. split; [cbn; lia|].
        intros [|d] Hd; cbn [nth]; [rewrite Nat.add_0_r; exact Hx|]. specialize (Hi d ltac:(lia)).
        replace (s + S d)%nat with (S s + d)%nat by lia. exact Hi.
      + intros [L Hi]. destruct i as [|x i]; [discriminate|]. constructor.
        * specialize (Hi 0%nat ltac:(lia)). rewrite Nat.add_0_r in Hi. exact Hi.
        * apply IH. split; [cbn in L; lia|]. intros d Hd. specialize (Hi (S d) ltac:(lia)). cbn [nth] in Hi.
          replace (S s + d)%nat with (s + S d)%nat by lia. exact Hi. }
  apply G.
Qed.

Lemma f2_len {A B} (R : A -> B -> Prop) a b : Forall2 R a b -> length a = length b.
Proof. induction 1; cbn; congruence. Qed.
Lemma at_out (i : list Z) d : (length i <= d)%nat -> at_ i d = 0.
Proof. apply nth_overflow. Qed.

Lemma range_at v i : in_range (sizes v) i <-> length i = dim v /\ forall d, (d < dim v)%nat -> 0 <= at_ i d < vsize v d.
Proof. apply in_range_at. Qed.

Lemma diag_size_ok r c k : 0 <= r < H64 -> 0 <= c < H64 -> - r <= k <= c ->
  diag_size r c k = Z.max 0 (Z.min (Z.min r c) (if 0 <=? k then c - k else r + k)).
Proof.
  intros Hr Hc Hk. pose proof W64_H64. unfold diag_size. destruct (Z.leb_spec 0 k); rewrite u64_small by lia; lia.
Qed.

Lemma wf_dim v : wf v -> (1 <= dim v <= 3)%nat /\ forall d, (d < dim v)%nat -> 0 <= vsize v d < H64.
Proof.
  pose proof W64_H64 as HW. pose proof H64_pos as HH.
  induction v as [ext l|dm v IH|D x v IH|D1 D2 x y v IH|k v IH|v IH|p v IH]; cbn [wf dim vsize].
  - intros [E L]. split.
    + destruct L as [(o & p & L & _)|(rl & e & L & _)].
      * destruct ext as [|? [|? [|? [|? ext]]]]; cbn [length]; try lia; destruct p; discriminate.
      * destruct ext as [|? [|? [|? [|? ext]]]]; cbn [length] in *; try lia; cbn in L; try discriminate L; destruct (rt_order rl); discriminate L.
    + intros d Hd. unfold at_. rewrite Forall_forall in E. apply E, nth_In, Hd.
  - intros (W & O & F). destruct (IH W) as [A B]. split; [exact A|]. intros d Hd.
    assert (L : length dm = dim v) by (rewrite (f2_len _ _ _ F); unfold sizes; rewrite map_length, seq_length; reflexivity).
    rewrite Forall_forall in O. destruct (O (nth d dm (mkdom 0 1 0))) as (_ & _ & X & _); [apply nth_In; lia|exact X].
  - intros (W & H2 & HD & Hx). destruct (IH W) as [A B]. split; [lia|]. intros d Hd.
    pose proof (B D HD). destruct (Z.eqb_spec x no_index) as [E|E]; [lia|]. apply B. unfold skip1.
    destruct (Nat.ltb_spec d D); lia.
  - intros (W & H3 & HD & _). destruct (IH W) as [A B]. split; [lia|]. intros d Hd. apply B. unfold skip2.
    destruct (Nat.ltb_spec d D1), (Nat.ltb_spec (d + 1) D2); lia.
  - intros (W & H2 & Hk). destruct (IH W) as [A B]. split; [lia|]. intros d Hd.
    rewrite diag_size_ok; auto; try (apply B; lia).
    pose proof (B 0%nat ltac:(lia)). pose proof (B 1%nat ltac:(lia)). destruct (0 <=? k); lia.
  - intros (W & H2). destruct (IH W) as [A B]. split; [lia|]. intros d Hd. apply B. lia.
  - intros (W & H3 & P). destruct (IH W) as [A B]. split; [lia|]. intros d Hd. apply B. rewrite H3 in *.
    destruct p as [|[|[|[|?]]] [|[|[|[|?]]] [|[|[|[|?]]] [|? ?]]]]; try discriminate P; destruct d as [|[|[|d]]]; cbn; lia.
Qed.

Lemma stored_root ext l i : stored ext l -> in_range ext i ->
  index l i = Some (dot_strides (stride l) 0 i) /\ 0 <= dot_strides (stride l) 0 i < total_size l.
Proof.
  intros [E S] R. assert (P : pos_ext ext) by (unfold pos_ext; eapply Forall_impl; [|exact E]; cbn; lia).
  assert (X : index l i = Some (dot_strides (stride l) 0 i) /\ own_cells l ext).
  { destruct S as [(o & p & M & F)|(rl & e & V & He & Ha & M)].
    - split; [eapply make_layout_index; eassumption|eapply make_layout_own; eassumption].
    - split; [eapply make_rt_index; eassumption|].
      destruct (make_rt_own rl ext e V P He Ha) as (a & Ma & Oa & _). congruence. }
  destruct X as [X [Y _]]. split; [exact X|]. destruct (Y i R) as (a & Ea & Ba). rewrite X in Ea. injection Ea as <-. exact Ba.
Qed.
Lemma stored_inj ext l i j : stored ext l -> in_range ext i -> in_range ext j -> index l i = index l j -> i = j.
Proof.
  intros [E S]. assert (P : pos_ext ext) by (unfold pos_ext; eapply Forall_impl; [|exact E]; cbn; lia).
  destruct S as [(o & p & M & F)|(rl & e & V & He & Ha & M)].
  - apply (make_layout_own o p ext l P M F).
  - destruct (make_rt_own rl ext e V P He Ha) as (a & Ma & Oa & _). assert (a = l) as -> by congruence. apply Oa.
Qed.

Definition dflt (o : option (list Z)) : list Z := match o with Some a => a | None => [] end.
Definition par (c : view) (i : list Z) : list Z :=
  match c with
  | Root _ _ => i
  | Subset dm _ => nths dm i
  | Sliced D x _ => dflt (slice_args D x i)
  | Sliced2 D1 D2 x y _ => dflt (slice2_args D1 D2 x y i)
  | Diag k _ => dflt (diag_args k i)
  | Transposed _ => dflt (trans_args i)
  | Permuted p _ => dflt (perm_args p i)
  end.
Definition step_ok (c v : view) (i q : list Z) : Prop :=
  q = par c i /\
  in_range (sizes v) q /\
  (forall V (m : mem V), get c m i = get v m q) /\
  (forall V (m : mem V) x, put c m i x = put v m q x) /\
  (forall r, names c i r <-> names v q r) /\
  ptr c + dot_strides (vstride c) 0 i = ptr v + dot_strides (vstride v) 0 q.

Lemma len_sizes v : length (sizes v) = dim v.
Proof. unfold sizes. rewrite map_length, seq_length. reflexivity. Qed.

Lemma firsts_dot st dm i : length dm = length i -> Forall dom_ok dm ->
  Forall2 (fun x n => 0 <= x < n) i (map dlen dm) ->
  forall pre, firsts st (length pre) dm + dot_strides (fun d => st d * dstride (nth d (pre ++ dm) (mkdom 0 1 0))) (length pre) i
  = dot_strides st (length pre) (nths dm i).
Proof.
  revert i; induction dm as [|d dm IH]; intros [|x i] L O R pre; try discriminate; cbn [firsts dot_strides nths]; [reflexivity|].
  inversion O as [|? ? Od O']; subst. cbn [map] in R. inversion R as [|? ? ? ? Rx R']; subst.
  specialize (IH i ltac:(cbn in L; lia) O' R' (pre ++ [d])). rewrite app_length, <- app_assoc, Nat.add_1_r in IH. cbn [app] in IH.
  rewrite <- IH, (nth_idx d x Od Rx). rewrite app_nth2, Nat.sub_diag by lia. cbn [nth]. unfold idx. ring.
Qed.

Lemma subset_step dm v i : wf (Subset dm v) -> in_range (sizes (Subset dm v)) i -> step_ok (Subset dm v) v i (nths dm i).
Proof.
  intros (W & O & F) R. pose proof (f2_len _ _ _ F) as L. rewrite len_sizes in L.
  apply range_at in R as [Li R]. cbn [dim vsize] in *.
  assert (R2 : Forall2 (fun x n => 0 <= x < n) i (map dlen dm)).
  { assert (X : in_range (map (fun d => dlen (nth d dm (mkdom 0 1 0))) (seq 0 (length dm))) i) by (apply in_range_at; split; [lia|intros d Hd; apply R; lia]).
    unfold in_range in X. replace (map dlen dm) with (map (fun d => dlen (nth d dm (mkdom 0 1 0))) (seq 0 (length dm))); [exact X|].
    apply nth_ext with 0 0; rewrite !map_length, ?seq_length; [reflexivity|]. intros d Hd.
    rewrite (nth_indep _ 0 ((fun d => dlen (nth d dm (mkdom 0 1 0))) 0%nat)) by (rewrite map_length, seq_length; exact Hd).
    rewrite (map_nth (fun d => dlen (nth d dm (mkdom 0 1 0)))), seq_nth by exact Hd.
    change 0 with (dlen (mkdom 0 1 0)). rewrite map_nth. reflexivity. }
  split; [reflexivity|]. split; [|split; [|split; [|split]]].
  - unfold in_range. clear R Li. assert (LL : length (sizes v) = length dm) by (rewrite len_sizes; lia). clear L. revert i R2 O F.
    generalize (sizes v) as sz. clear.
    induction dm as [|d dm IH]; intros sz [|x i] R2 O F; cbn [map nths] in *; inversion R2 as [|? ? ? ? Rx R']; subst;
      inversion F as [|? n ? sz' Fd F']; subst; [constructor|].
    inversion O as [|? ? Od O']; subst. constructor; [|apply IH; auto].
    rewrite (nth_idx d x Od Rx). destruct Fd as [Z0|[F1 F2]]; [lia|].
    rewrite (last_idx d Od) in F2 by lia. pose proof (idx_between d x Od Rx). unfold idx in *.
    destruct (Z_le_dec 0 (dstride d)); nia.
  - intros V m. cbn [get]. assert (inb (map dlen dm) i = true) as -> by (apply inb_iff; exact R2). reflexivity.
  - reflexivity.
  - intros r. cbn [names].
    assert (Q : forall q, Forall2 (fun '(d, x) y => y = dfirst d + dstride d * x) (combine dm i) q <-> q = nths dm i).
    { clear - R2 O. revert i R2 O. induction dm as [|d dm IH]; intros [|x i] R2 O q; cbn [map combine nths] in *;
        inversion R2 as [|? ? ? ? Rx R']; subst.
      - split; [intros H; inversion H; reflexivity|intros ->; constructor].
      - inversion O as [|? ? Od O']; subst. rewrite (nth_idx d x Od Rx). split.
        + intros H. inversion H as [|? y ? q' Hy Hq]; subst. apply (IH i R' O') in Hq. subst. reflexivity.
        + intros ->. constructor; [reflexivity|]. apply (IH i R' O'). reflexivity. }
    split.
    + intros (q & Hq & N). apply Q in Hq as ->. exact N.
    + intros N. exists (nths dm i). split; [apply Q; reflexivity|exact N].
  - cbn [ptr vstride]. rewrite <- Z.add_assoc. f_equal.
    exact (firsts_dot (vstride v) dm i ltac:(lia) O R2 []).
Qed.

Ltac list1 i L := destruct i as [|?a [|? ?]]; try discriminate L.
Ltac fin_range R := apply range_at; split; [cbn [length]; lia|].

Lemma sliced_step D x v i : wf (Sliced D x v) -> in_range (sizes (Sliced D x v)) i ->
  exists q, step_ok (Sliced D x v) v i q.
Proof.
  intros (W & H2 & HD & Hx) R. destruct (wf_dim v W) as [A B]. apply range_at in R as [L R]. cbn [dim vsize] in L, R.
  pose proof (B D HD) as BD. pose proof W64_H64. assert (x =? no_index = false) as E by (apply Z.eqb_neq; unfold no_index; lia).
  rewrite E in R.
  assert (C : dim v = 2%nat \/ dim v = 3%nat) by lia. destruct C as [C|C]; rewrite C in *; cbn [Nat.sub] in *.
  - destruct i as [|a [|? ?]]; try discriminate L. specialize (R 0%nat ltac:(lia)). cbn in R.
    destruct D as [|[|D]]; [| |lia].
    + exists [x; a]. split; [reflexivity|]. split; [apply range_at; rewrite C; split; [reflexivity|intros [|[|d]] Hd; [exact Hx|exact R|lia]]|].
      repeat split; try reflexivity; try (intros X; exact X). cbn. ring.
    + exists [a; x]. split; [reflexivity|]. split; [apply range_at; rewrite C; split; [reflexivity|intros [|[|d]] Hd; [exact R|exact Hx|lia]]|].
      repeat split; try reflexivity; try (intros X; exact X). cbn. ring.
  - destruct i as [|a [|b [|? ?]]]; try discriminate L. pose proof (R 0%nat ltac:(lia)) as R0. pose proof (R 1%nat ltac:(lia)) as R1. cbn in R0, R1.
    destruct D as [|[|[|D]]]; [| | |lia].
    + exists [x; a; b]. split; [reflexivity|]. split; [apply range_at; rewrite C; split; [reflexivity|intros [|[|[|d]]] Hd; [exact Hx|exact R0|exact R1|lia]]|].
      repeat split; try reflexivity; try (intros X; exact X). cbn. ring.
    + exists [a; x; b]. split; [reflexivity|]. split; [apply range_at; rewrite C; split; [reflexivity|intros [|[|[|d]]] Hd; [exact R0|exact Hx|exact R1|lia]]|].
      repeat split; try reflexivity; try (intros X; exact X). cbn. ring.
    + exists [a; b; x]. split; [reflexivity|]. split; [apply range_at; rewrite C; split; [reflexivity|intros [|[|[|d]]] Hd; [exact R0|exact R1|exact Hx|lia]]|].
      repeat split; try reflexivity; try (intros X; exact X). cbn. ring.
Qed.

Lemma list3 (q : list Z) : length q = 3%nat -> q = [at_ q 0; at_ q 1; at_ q 2].
Proof. destruct q as [|a [|b [|c [|? ?]]]]; try discriminate. reflexivity. Qed.

Lemma sliced2_step D1 D2 x y v i : wf (Sliced2 D1 D2 x y v) -> in_range (sizes (Sliced2 D1 D2 x y v)) i ->
  exists q, step_ok (Sliced2 D1 D2 x y v) v i q.
Proof.
  intros (W & H3 & HD & Hx & Hy) R. apply range_at in R as [L R]. cbn [dim vsize] in L, R. rewrite H3 in *. cbn [Nat.sub] in *.
  destruct i as [|a [|? ?]]; try discriminate L. specialize (R 0%nat ltac:(lia)). cbn [at_ nth] in R.
  assert (C : (D1 = 0 /\ D2 = 1 \/ D1 = 0 /\ D2 = 2 \/ D1 = 1 /\ D2 = 2)%nat) by lia.
  assert (NM : forall q, length q = 3%nat -> at_ q D1 = x -> at_ q D2 = y -> at_ q (3 - D1 - D2) = a ->
    forall r, names (Sliced2 D1 D2 x y v) [a] r <-> names v q r).
  { intros q Lq Q1 Q2 Q3 r. cbn [names]. split.
    - intros (q' & L' & P1 & P2 & P3 & N). replace q with q'; [exact N|].
      rewrite (list3 q Lq), (list3 q' L'). destruct C as [[-> ->]|[[-> ->]|[-> ->]]]; cbn [Nat.sub] in *; cbn [at_ nth] in P3; unfold at_ in *; cbn [nth] in *; congruence.
    - intros N. exists q. auto. }
  destruct C as [[-> ->]|[[-> ->]|[-> ->]]]; cbn [Nat.sub] in *;
    [exists [x; y; a]|exists [x; a; y]|exists [a; x; y]];
    (split; [reflexivity|]); (split; [apply range_at; rewrite H3; split; [reflexivity|intros [|[|[|d]]] Hd; [assumption..|lia]]|]);
    (split; [reflexivity|]); (split; [reflexivity|]); (split; [apply NM; reflexivity|]); cbn; ring.
Qed.

Lemma diag_step k v i : wf (Diag k v) -> in_range (sizes (Diag k v)) i -> exists q, step_ok (Diag k v) v i q.
Proof.
  intros (W & H2 & Hk) R. destruct (wf_dim v W) as [A B]. rewrite H2 in *.
  pose proof (B 0%nat ltac:(lia)) as B0. pose proof (B 1%nat ltac:(lia)) as B1. pose proof W64_H64. pose proof H64_pos.
  apply range_at in R as [L R]. cbn [dim vsize] in L, R. rewrite H2 in *. cbn [Nat.sub] in *.
  destruct i as [|a [|? ?]]; try discriminate L. specialize (R 0%nat ltac:(lia)). cbn [at_ nth] in R.
  rewrite diag_size_ok in R by assumption.
  assert (NM : forall r, names (Diag k v) [a] r <-> names v [a + Z.max 0 (- k); a + Z.max 0 k] r).
  { intros r. cbn [names at_ nth]. split.
    - intros (x & y & E & M & N). replace (a + Z.max 0 (- k)) with x by lia. replace (a + Z.max 0 k) with y by lia. exact N.
    - intros N. eexists _, _. split; [|split; [|exact N]]; cbn [at_ nth]; lia. }
  exists [a + Z.max 0 (- k); a + Z.max 0 k].
  assert (AR : diag_args k [a] = Some [a + Z.max 0 (- k); a + Z.max 0 k]).
  { unfold diag_args. destruct (Z.leb_spec 0 k); rewrite u64_small by lia; do 2 f_equal; try lia; f_equal; lia. }
  split; [cbn [par]; rewrite AR; reflexivity|]. split; [|split; [|split; [|split]]].
  - apply range_at; rewrite H2; split; [reflexivity|]. intros [|[|d]] Hd; cbn [at_ nth]; try lia; destruct (Z.leb_spec 0 k); lia.
  - intros V m. cbn [get]. rewrite AR. reflexivity.
  - intros V m x. cbn [put]. rewrite AR. reflexivity.
  - exact NM.
  - cbn [ptr vstride dot_strides]. destruct (Z.leb_spec 0 k).
    + replace (Z.max 0 (- k)) with 0 by lia. replace (Z.max 0 k) with k by lia. ring.
    + replace (Z.max 0 (- k)) with (- k) by lia. replace (Z.max 0 k) with 0 by lia. ring.
Qed.

Lemma transposed_step v i : wf (Transposed v) -> in_range (sizes (Transposed v)) i -> exists q, step_ok (Transposed v) v i q.
Proof.
  intros (W & H2) R. apply range_at in R as [L R]. cbn [dim vsize] in L, R. rewrite H2 in *.
  destruct i as [|a [|b [|? ?]]]; try discriminate L. pose proof (R 0%nat ltac:(lia)) as R0. pose proof (R 1%nat ltac:(lia)) as R1. cbn in R0, R1.
  exists [b; a]. split; [reflexivity|]. split; [apply range_at; rewrite H2; split; [reflexivity|intros [|[|d]] Hd; [assumption..|lia]]|].
  repeat split; try reflexivity; try (intros X; exact X). cbn. ring.
Qed.

Lemma permuted_step p v i : wf (Permuted p v) -> in_range (sizes (Permuted p v)) i -> exists q, step_ok (Permuted p v) v i q.
Proof.
  intros (W & H3 & P) R. apply range_at in R as [L R]. cbn [dim vsize] in L, R. rewrite H3 in *.
  destruct i as [|a [|b [|c [|? ?]]]]; try discriminate L.
  pose proof (R 0%nat ltac:(lia)) as R0. pose proof (R 1%nat ltac:(lia)) as R1. pose proof (R 2%nat ltac:(lia)) as R2. clear R.
  assert (NM : forall q, length q = 3%nat -> (forall d, (d < 3)%nat -> at_ q (nth d p 0%nat) = at_ [a; b; c] d) ->
    forall r, names (Permuted p v) [a; b; c] r <-> names v q r).
  { intros q Lq Q r. cbn [names]. split.
    - intros (q' & L' & Q' & N). replace q with q'; [exact N|]. rewrite (list3 q Lq), (list3 q' L').
      pose proof (Q 0%nat ltac:(lia)) as X0. pose proof (Q 1%nat ltac:(lia)) as X1. pose proof (Q 2%nat ltac:(lia)) as X2.
      pose proof (Q' 0%nat ltac:(lia)) as Y0. pose proof (Q' 1%nat ltac:(lia)) as Y1. pose proof (Q' 2%nat ltac:(lia)) as Y2.
      clear - P X0 X1 X2 Y0 Y1 Y2.
      destruct p as [|[|[|[|?]]] [|[|[|[|?]]] [|[|[|[|?]]] [|? ?]]]]; try discriminate P; cbn [nth] in *; congruence.
    - intros N. exists q. auto. }
  assert (X : exists q, perm_args p [a; b; c] = Some q /\ length q = 3%nat /\
      (forall d, (d < 3)%nat -> at_ q (nth d p 0%nat) = at_ [a; b; c] d) /\
      (forall d, (d < 3)%nat -> 0 <= at_ q d < vsize v d) /\
      dot_strides (vstride v) 0 q = dot_strides (fun d => vstride v (nth d p 0%nat)) 0 [a; b; c]).
  { clear NM. destruct p as [|[|[|[|?]]] [|[|[|[|?]]] [|[|[|[|?]]] [|? ?]]]]; try discriminate P; cbn in R0, R1, R2;
      (eexists; split; [reflexivity|]); (split; [reflexivity|]);
      (split; [intros [|[|[|d]]] Hd; [reflexivity..|lia]|]);
      (split; [intros [|[|[|d]]] Hd; [assumption..|lia]|]); cbn; ring. }
  destruct X as (q & Eq & Lq & Q & Rq & Dq). exists q.
  split; [cbn [par]; rewrite Eq; reflexivity|]. split; [apply range_at; rewrite H3; auto|].
  split; [intros V m; cbn [get]; rewrite Eq; reflexivity|].
  split; [intros V m x; cbn [put]; rewrite Eq; reflexivity|].
  split; [apply NM; assumption|]. cbn [ptr vstride]. rewrite Dq. reflexivity.
Qed.

Lemma step v : wf v -> match v with
  | Root _ _ => True
  | Subset _ u | Sliced _ _ u | Sliced2 _ _ _ _ u | Diag _ u | Transposed u | Permuted _ u =>
      wf u /\ root_ext v = root_ext u /\ root_layout v = root_layout u /\
      forall i, in_range (sizes v) i -> exists q, step_ok v u i q
  end.
Proof.
  destruct v as [ext l|dm v|D x v|D1 D2 x y v|k v|v|p v]; intros W; [exact I|..]; (split; [apply W|]); (split; [reflexivity|]); (split; [reflexivity|]); intros i R.
  - exists (nths dm i). apply subset_step; assumption.
  - apply sliced_step; assumption.
  - apply sliced2_step; assumption.
  - apply diag_step; assumption.
  - apply transposed_step; assumption.
  - apply permuted_step; assumption.
Qed.

Lemma view_lemma v : wf v -> stored (root_ext v) (root_layout v) /\ forall i, in_range (sizes v) i ->
  exists r, (forall r', names v i r' <-> r' = r) /\ in_range (root_ext v) r /\
    (forall V (m : mem V), get v m i = get (Root (root_ext v) (root_layout v)) m r) /\
    (forall V (m : mem V) x, put v m i x = put (Root (root_ext v) (root_layout v)) m r x) /\
    index (root_layout v) r = Some (ptr v + dot_strides (vstride v) 0 i).
Proof.
  assert (K : forall c u, (wf u -> stored (root_ext u) (root_layout u) /\ forall i, in_range (sizes u) i ->
     exists r, (forall r', names u i r' <-> r' = r) /\ in_range (root_ext u) r /\
    (forall V (m : mem V), get u m i = get (Root (root_ext u) (root_layout u)) m r) /\
    (forall V (m : mem V) x, put u m i x = put (Root (root_ext u) (root_layout u)) m r x) /\
    index (root_layout u) r = Some (ptr u + dot_strides (vstride u) 0 i)) ->
    wf u /\ root_ext c = root_ext u /\ root_layout c = root_layout u /\
      (forall i, in_range (sizes c) i -> exists q, step_ok c u i q) ->
    stored (root_ext c) (root_layout c) /\ forall i, in_range (sizes c) i ->
     exists r, (forall r', names c i r' <-> r' = r) /\ in_range (root_ext c) r /\
    (forall V (m : mem V), get c m i = get (Root (root_ext c) (root_layout c)) m r) /\
    (forall V (m : mem V) x, put c m i x = put (Root (root_ext c) (root_layout c)) m r x) /\
    index (root_layout c) r = Some (ptr c + dot_strides (vstride c) 0 i)).
  { intros c u IH (W & E1 & E2 & S). rewrite E1, E2. destruct (IH W) as [St U]. split; [exact St|].
    intros i R. destruct (S i R) as (q & _ & Rq & G & P & N & A). destruct (U q Rq) as (r & N' & Rr & G' & P' & A').
    exists r. split; [intros r'; rewrite N; apply N'|]. split; [exact Rr|].
    split; [intros V m; rewrite G; apply G'|]. split; [intros V m x; rewrite P; apply P'|]. rewrite A. exact A'. }
  induction v as [ext l|dm v IH|D x v IH|D1 D2 x y v IH|k v IH|v IH|p v IH]; intros W.
  - cbn [root_ext root_layout]. split; [exact W|]. intros i R. exists i.
    assert (R' : in_range ext i).
    { unfold sizes in R. cbn [dim vsize] in R. change (map (vsize (Root ext l)) (seq 0 (length ext))) with (sizes (Root ext l)) in R. assert (SE : sizes (Root ext l) = ext); [|unfold sizes in SE; cbn [dim vsize] in SE; rewrite SE in R; exact R]. unfold sizes. cbn [dim].
      clear. assert (G : forall pre, map (vsize (Root (pre ++ ext) l)) (seq (length pre) (length ext)) = ext).
      { induction ext as [|x ext IH]; intros pre; [reflexivity|]. cbn [length seq map].
        f_equal; [cbn [vsize]; unfold at_; rewrite app_nth2, Nat.sub_diag by lia; reflexivity|].
        specialize (IH (pre ++ [x])). rewrite <- app_assoc, app_length, Nat.add_1_r in IH. exact IH. }
      exact (G []). }
    cbn [names get put ptr vstride]. split; [intros r'; split; congruence|]. split; [exact R'|].
    split; [reflexivity|]. split; [reflexivity|]. rewrite Z.add_0_l. apply (stored_root ext l i W R').
  - exact (K _ _ IH (step (Subset dm v) W)).
  - exact (K _ _ IH (step (Sliced D x v) W)).
  - exact (K _ _ IH (step (Sliced2 D1 D2 x y v) W)).
  - exact (K _ _ IH (step (Diag k v) W)).
  - exact (K _ _ IH (step (Transposed v) W)).
  - exact (K _ _ IH (step (Permuted p v) W)).
Qed.


Lemma nths_inj dm : Forall dom_ok dm -> Forall (fun d => dstride d <> 0 \/ dlen d <= 1) dm ->
  forall i j, Forall2 (fun x n => 0 <= x < n) i (map dlen dm) -> Forall2 (fun x n => 0 <= x < n) j (map dlen dm) ->
  nths dm i = nths dm j -> i = j.
Proof.
  induction dm as [|d dm IH]; intros O N [|x i] [|y j] Ri Rj E; cbn [map nths] in *;
    try (inversion Ri; fail); try (inversion Rj; fail); [reflexivity|].
  inversion O as [|? ? Od O']; subst. inversion N as [|? ? Nd N']; subst.
  inversion Ri as [|? ? ? ? Rx Ri']; subst. inversion Rj as [|? ? ? ? Ry Rj']; subst.
  injection E as E1 E2. rewrite (nth_idx d x Od Rx), (nth_idx d y Od Ry) in E1. unfold idx in E1.
  f_equal; [|apply IH; auto]. destruct Nd as [Nd|Nd]; [|lia].
  apply Z.mul_reg_l with (dstride d); [exact Nd|lia].
Qed.

Lemma subset_range dm v i : length dm = dim v -> in_range (sizes (Subset dm v)) i -> Forall2 (fun x n => 0 <= x < n) i (map dlen dm).
Proof.
  intros L R. apply range_at in R as [Li R]. cbn [dim vsize] in *.
  assert (X : in_range (map (fun d => dlen (nth d dm (mkdom 0 1 0))) (seq 0 (length dm))) i) by (apply in_range_at; split; [lia|intros d Hd; apply R; lia]).
  unfold in_range in X. replace (map dlen dm) with (map (fun d => dlen (nth d dm (mkdom 0 1 0))) (seq 0 (length dm))); [exact X|].
  apply nth_ext with 0 0; rewrite !map_length, ?seq_length; [reflexivity|]. intros d Hd.
  rewrite (nth_indep _ 0 ((fun d => dlen (nth d dm (mkdom 0 1 0))) 0%nat)) by (rewrite map_length, seq_length; exact Hd).
  rewrite (map_nth (fun d => dlen (nth d dm (mkdom 0 1 0)))), seq_nth by exact Hd.
  change 0 with (dlen (mkdom 0 1 0)). rewrite map_nth. reflexivity.
Qed.

Lemma par_inj v i j : wf v -> no_repeat v -> in_range (sizes v) i -> in_range (sizes v) j -> par v i = par v j -> i = j.
Proof.
  destruct v as [ext l|dm v|D x v|D1 D2 x y v|k v|v|p v]; cbn [wf no_repeat par]; intros W N Ri Rj E.
  - exact E.
  - destruct W as (W & O & F). pose proof (f2_len _ _ _ F) as L. rewrite len_sizes in L.
    eapply nths_inj; [exact O|apply N|eapply subset_range; eassumption..|exact E].
  - destruct W as (W & H2 & HD & _). destruct (wf_dim v W) as [A _].
    apply range_at in Ri as [Li _]. apply range_at in Rj as [Lj _]. cbn [dim] in Li, Lj.
    assert (C : dim v = 2%nat \/ dim v = 3%nat) by lia.
    destruct C as [C|C]; rewrite C in *;
      destruct i as [|a [|b [|? ?]]]; try discriminate Li; destruct j as [|a' [|b' [|? ?]]]; try discriminate Lj;
      (destruct D as [|[|[|D]]]; try lia; cbn in E; congruence).
  - destruct W as (W & H3 & HD & _). apply range_at in Ri as [Li _]. apply range_at in Rj as [Lj _]. cbn [dim] in Li, Lj.
    rewrite H3 in *. destruct i as [|a [|? ?]]; try discriminate Li. destruct j as [|a' [|? ?]]; try discriminate Lj.
    assert (C : (D1 = 0 /\ D2 = 1 \/ D1 = 0 /\ D2 = 2 \/ D1 = 1 /\ D2 = 2)%nat) by lia.
    destruct C as [[-> ->]|[[-> ->]|[-> ->]]]; cbn in E; congruence.
  - destruct W as (W & H2 & _). apply range_at in Ri as [Li _]. apply range_at in Rj as [Lj _]. cbn [dim] in Li, Lj.
    rewrite H2 in *. destruct i as [|a [|? ?]]; try discriminate Li. destruct j as [|a' [|? ?]]; try discriminate Lj.
    unfold diag_args, dflt in E. destruct (0 <=? k); congruence.
  - destruct W as (W & H2). apply range_at in Ri as [Li _]. apply range_at in Rj as [Lj _]. cbn [dim] in Li, Lj.
    rewrite H2 in *. destruct i as [|a [|b [|? ?]]]; try discriminate Li. destruct j as [|a' [|b' [|? ?]]]; try discriminate Lj.
    cbn in E. congruence.
  - destruct W as (W & H3 & P). apply range_at in Ri as [Li _]. apply range_at in Rj as [Lj _]. cbn [dim] in Li, Lj.
    rewrite H3 in *. destruct i as [|a [|b [|c [|? ?]]]]; try discriminate Li. destruct j as [|a' [|b' [|c' [|? ?]]]]; try discriminate Lj.
    destruct p as [|[|[|[|?]]] [|[|[|[|?]]] [|[|[|[|?]]] [|? ?]]]]; try discriminate P; cbn in E; congruence.
Qed.

Lemma names_inj v : wf v -> no_repeat v -> forall i j r, in_range (sizes v) i -> in_range (sizes v) j ->
  names v i r -> names v j r -> i = j.
Proof.
  assert (K : forall c u, (no_repeat c -> no_repeat u) ->
    (wf u -> no_repeat u -> forall i j r, in_range (sizes u) i -> in_range (sizes u) j -> names u i r -> names u j r -> i = j) ->
    wf u /\ root_ext c = root_ext u /\ root_layout c = root_layout u /\
      (forall i, in_range (sizes c) i -> exists q, step_ok c u i q) ->
    wf c -> no_repeat c -> forall i j r, in_range (sizes c) i -> in_range (sizes c) j -> names c i r -> names c j r -> i = j).
  { intros c u NR IH (W & _ & _ & S) Wc Nc i j r Ri Rj Ni Nj.
    destruct (S i Ri) as (q & Eq & Rq & _ & _ & Nq & _). destruct (S j Rj) as (q' & Eq' & Rq' & _ & _ & Nq' & _).
    apply (par_inj c i j Wc Nc Ri Rj). rewrite <- Eq, <- Eq'.
    apply (IH W (NR Nc) q q' r Rq Rq'); [apply Nq, Ni|apply Nq', Nj]. }
  induction v as [ext l|dm v IH|D x v IH|D1 D2 x y v IH|k v IH|v IH|p v IH]; intros W N.
  - intros i j r _ _. cbn [names]. congruence.
  - apply (K (Subset dm v) v (fun h => proj2 h) IH (step (Subset dm v) W) W N).
  - apply (K (Sliced D x v) v (fun h => h) IH (step (Sliced D x v) W) W N).
  - apply (K (Sliced2 D1 D2 x y v) v (fun h => h) IH (step (Sliced2 D1 D2 x y v) W) W N).
  - apply (K (Diag k v) v (fun h => h) IH (step (Diag k v) W) W N).
  - apply (K (Transposed v) v (fun h => h) IH (step (Transposed v) W) W N).
  - apply (K (Permuted p v) v (fun h => h) IH (step (Permuted p v) W) W N).
Qed.

(** Reading and writing. *)
Lemma get_lemma {V} v i r (m : mem V) : wf v -> in_range (sizes v) i -> names v i r ->
  in_range (root_ext v) r /\ get v m i = get (Root (root_ext v) (root_layout v)) m r.
Proof.
  intros W R N. destruct (view_lemma v W) as [_ U]. destruct (U i R) as (r' & N' & Rr & G & _).
  apply N' in N as ->. auto.
Qed.
Lemma names_exists v i : wf v -> in_range (sizes v) i -> exists r, forall r', names v i r' <-> r' = r.
Proof. intros W R. destruct (view_lemma v W) as [_ U]. destruct (U i R) as (r & N & _). exists r. exact N. Qed.

Lemma put_lemma {V} v i r x (m : mem V) : wf v -> in_range (sizes v) i -> names v i r ->
  (forall a, 0 <= a < total_size (root_layout v) -> exists y, m a = Some y) ->
  exists m', put v m i x = Some m' /\
    get (Root (root_ext v) (root_layout v)) m' r = Some x /\
    (forall r', in_range (root_ext v) r' -> r' <> r ->
       get (Root (root_ext v) (root_layout v)) m' r' = get (Root (root_ext v) (root_layout v)) m r') /\
    (forall a, (forall r', in_range (root_ext v) r' -> index (root_layout v) r' <> Some a) -> m' a = m a).
Proof.
  intros W R N M. destruct (view_lemma v W) as [St U]. destruct (U i R) as (r0 & N' & Rr & _ & P & A).
  apply N' in N as ->. rewrite P. cbn [put get].
  destruct (stored_root _ _ _ St Rr) as [A' B]. rewrite A'. set (a := dot_strides (stride (root_layout v)) 0 r0) in *.
  cbn [bind]. destruct (M a B) as (y & Ey). unfold mstore. rewrite Ey.
  eexists. split; [reflexivity|]. unfold mload, mupd. split; [rewrite Z.eqb_refl; reflexivity|]. split.
  - intros r' Rr' Ne. destruct (stored_root _ _ _ St Rr') as [E' B']. rewrite E'. cbn [bind].
    destruct (Z.eqb_spec (dot_strides (stride (root_layout v)) 0 r') a) as [X|X]; [|reflexivity].
    exfalso. apply Ne. apply (stored_inj _ _ _ _ St Rr' Rr). rewrite E', A', X. reflexivity.
  - intros b Hb. destruct (Z.eqb_spec b a) as [->|X]; [|reflexivity]. exfalso. exact (Hb r0 Rr A').
Qed.

Lemma put_get_lemma {V} v i x (m : mem V) : wf v -> no_repeat v -> in_range (sizes v) i ->
  (forall a, 0 <= a < total_size (root_layout v) -> exists y, m a = Some y) ->
  exists m', put v m i x = Some m' /\ get v m' i = Some x /\
    forall j, in_range (sizes v) j -> j <> i -> get v m' j = get v m j.
Proof.
  intros W NR R M. destruct (names_exists v i W R) as (r & Nr). assert (N : names v i r) by (apply Nr; reflexivity).
  destruct (put_lemma v i r x m W R N M) as (m' & E & G & O & _). exists m'. split; [exact E|].
  split; [rewrite (proj2 (get_lemma v i r m' W R N)); exact G|].
  intros j Rj Ne. destruct (names_exists v j W Rj) as (r' & Nr'). assert (N' : names v j r') by (apply Nr'; reflexivity).
  destruct (get_lemma v j r' m' W Rj N') as [Rr' ->]. rewrite (proj2 (get_lemma v j r' m W Rj N')).
  apply O; [exact Rr'|]. intros ->. apply Ne. exact (names_inj v W NR j i r Rj R N' N).
Qed.

Lemma ptr_lemma v i r : wf v -> in_range (sizes v) i -> names v i r ->
  index (root_layout v) r = Some (ptr v + dot_strides (vstride v) 0 i) /\
  0 <= ptr v + dot_strides (vstride v) 0 i < total_size (root_layout v).
Proof.
  intros W R N. destruct (view_lemma v W) as [St U]. destruct (U i R) as (r' & N' & Rr & _ & _ & A).
  apply N' in N as ->. split; [exact A|]. destruct (stored_root _ _ _ St Rr) as [E B]. rewrite E in A. injection A as <-. exact B.
Qed.

Lemma diag_lemma k v : wf v -> dim v = 2%nat -> - vsize v 0 <= k <= vsize v 1 ->
  let n := vsize (Diag k v) 0 in
  0 <= n /\ forall a b, (0 <= a < vsize v 0 /\ 0 <= b < vsize v 1 /\ b - a = k) <->
    (exists i, 0 <= i < n /\ diag_args k [i] = Some [a; b]).
Proof.
  intros W H2 Hk. destruct (wf_dim v W) as [_ B]. rewrite H2 in B.
  pose proof (B 0%nat ltac:(lia)) as B0. pose proof (B 1%nat ltac:(lia)) as B1. pose proof W64_H64. pose proof H64_pos.
  cbn [vsize]. rewrite diag_size_ok by assumption. split; [lia|]. intros a b.
  unfold diag_args. split.
  - intros (Ha & Hb & E). destruct (Z.leb_spec 0 k).
    + exists a. split; [lia|]. rewrite u64_small by lia. do 3 f_equal. lia.
    + exists b. split; [lia|]. rewrite u64_small by lia. do 2 f_equal. lia.
  - intros (i & Hi & E). destruct (Z.leb_spec 0 k); rewrite u64_small in E by lia; injection E as E1 E2; lia.
Qed.

Lemma diag_exact_lemma k v : wf v -> dim v = 2%nat -> - vsize v 0 <= k <= vsize v 1 ->
  (forall a b, 0 <= a < vsize v 0 -> 0 <= b < vsize v 1 -> b - a = k ->
     0 <= Z.min a b < vsize (Diag k v) 0 /\
     forall V (m : mem V), get (Diag k v) m [Z.min a b] = get v m [a; b]) /\
  (forall i, 0 <= i < vsize (Diag k v) 0 -> exists a b, 0 <= a < vsize v 0 /\ 0 <= b < vsize v 1 /\ b - a = k /\
     i = Z.min a b /\ forall V (m : mem V), get (Diag k v) m [i] = get v m [a; b]).
Proof.
  intros W H2 Hk. destruct (wf_dim v W) as [_ B]. rewrite H2 in B.
  pose proof (B 0%nat ltac:(lia)) as B0. pose proof (B 1%nat ltac:(lia)) as B1. pose proof W64_H64. pose proof H64_pos.
  cbn [vsize]. rewrite diag_size_ok by assumption. split.
  - intros a b Ha Hb E. split; [destruct (Z.leb_spec 0 k); lia|]. intros V m. cbn [get diag_args].
    destruct (Z.leb_spec 0 k); rewrite u64_small by lia; cbn [bind]; do 2 f_equal; try lia; f_equal; lia.
  - intros i Hi. destruct (Z.leb_spec 0 k) as [Z1|Z1].
    + exists i, (i + k). repeat split; try lia. intros V m. cbn [get diag_args]. apply Z.leb_le in Z1. rewrite Z1.
      rewrite u64_small by lia. reflexivity.
    + exists (i - k), i. repeat split; try lia. intros V m. cbn [get diag_args]. apply Z.leb_gt in Z1. rewrite Z1.
      rewrite u64_small by lia. reflexivity.
Qed.
