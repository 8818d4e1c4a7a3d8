(** Proofs about Mpi.v. *)
From Coq Require Import List Arith ZArith Lia Bool Sorted.
From Verif Require Import Base Mpi.
Import ListNotations.

(** ** Lists *)
Lemma memb_in x l : memb x l = true <-> In x l.
Proof.
  unfold memb. rewrite existsb_exists. split.
  - intros (y & H & E). apply Nat.eqb_eq in E. now subst.
  - intros H. exists x. split; [exact H|apply Nat.eqb_refl].
Qed.

Lemma memb_out x l : memb x l = false <-> ~ In x l.
Proof. rewrite <- memb_in. destruct (memb x l); split; congruence. Qed.

Lemma pos_some x l : forall k, pos x l = Some k -> nth_error l k = Some x.
Proof.
  induction l as [|y l IH]; intros k; cbn [pos]; [discriminate|].
  destruct (Nat.eqb_spec x y) as [->|N].
  - intros [= <-]. reflexivity.
  - destruct (pos x l) as [j|]; cbn; [|discriminate]. intros [= <-]. cbn. auto.
Qed.

Lemma pos_none x l : pos x l = None <-> ~ In x l.
Proof.
  induction l as [|y l IH]; cbn [pos In]; [tauto|].
  destruct (Nat.eqb_spec x y) as [->|N]; [split; [discriminate|tauto]|].
  destruct (pos x l); cbn.
  - split; [discriminate|]. intros H. exfalso. apply H. right.
    destruct IH as [IH1 IH2]. destruct (in_dec Nat.eq_dec x l); [assumption|]. specialize (IH2 n0). discriminate.
  - split; [|reflexivity]. intros _ [->|H]; [congruence|]. tauto.
Qed.

Lemma pos_in x l : In x l <-> exists k, pos x l = Some k.
Proof.
  destruct (pos x l) as [k|] eqn:E.
  - split; [eauto|]. intros _. apply pos_some in E. apply nth_error_In in E. exact E.
  - apply pos_none in E. split; [tauto|]. intros (k & H). discriminate.
Qed.

Lemma pos_nth x l k : NoDup l -> (pos x l = Some k <-> nth_error l k = Some x).
Proof.
  intros N. split; [apply pos_some|]. intros H.
  destruct (pos x l) as [j|] eqn:E.
  - apply pos_some in E. f_equal. eapply NoDup_nth_error; [exact N| |congruence].
    apply nth_error_Some. congruence.
  - apply pos_none in E. apply nth_error_In in H. tauto.
Qed.

Lemma distinct_NoDup l : distinct l = true <-> NoDup l.
Proof.
  induction l as [|x l IH]; cbn; [split; [constructor|reflexivity]|].
  rewrite andb_true_iff, negb_true_iff, memb_out, IH. split.
  - intros [A B]. constructor; auto.
  - intros H; inversion H; auto.
Qed.

Lemma omap_nth {A B} (f : A -> option B) l : forall r, omap f l = Some r ->
  length r = length l /\ forall k x, nth_error l k = Some x -> nth_error r k = f x.
Proof.
  induction l as [|a l IH]; intros r; cbn [omap].
  - intros [= <-]. split; [reflexivity|]. intros [|k]; discriminate.
  - destruct (f a) as [b|] eqn:E; cbn [bind]; [|discriminate].
    destruct (omap f l) as [z|]; cbn [bind]; [|discriminate]. intros [= <-].
    destruct (IH z eq_refl) as [L H]. split; [cbn; lia|].
    intros [|k] x; cbn; [intros [= <-]; auto|apply H].
Qed.

Lemma omap_some {A B} (f : A -> option B) l : (forall x, In x l -> f x <> None) -> exists r, omap f l = Some r.
Proof.
  induction l as [|a l IH]; intros H; cbn [omap]; [eauto|].
  destruct (f a) as [b|] eqn:E; [|exfalso; apply (H a); [left|]; auto].
  destruct IH as (r & ->); [intros; apply H; now right|]. cbn. eauto.
Qed.

Lemma raw_wrap g : raw (wrap g) = g.
Proof. destruct g; reflexivity. Qed.
Lemma wrap_ne g : wrap g <> Some [].
Proof. destruct g; discriminate. Qed.

Lemma rank_raw p o : g_rank p o = pos p (raw o).
Proof. destruct o; reflexivity. Qed.
Lemma size_raw o : g_size o = length (raw o).
Proof. destruct o; reflexivity. Qed.
Lemma member_in p o : member p o <-> In p (raw o).
Proof. unfold member. rewrite pos_in. setoid_rewrite rank_raw. reflexivity. Qed.

Lemma NoDup_app_intro {A} (a b : list A) : NoDup a -> NoDup b -> (forall x, In x a -> ~ In x b) -> NoDup (a ++ b).
Proof.
  induction a as [|x a IH]; intros Na Nb H; [exact Nb|]. cbn. inversion Na; subst. constructor.
  - rewrite in_app_iff. intros [X|X]; [contradiction|]. apply (H x); [left|]; auto.
  - apply IH; auto. intros y Hy. apply H. now right.
Qed.

Lemma incl_ok g ranks g' : NoDup g -> mpi_incl g ranks = Some g' ->
  NoDup g' /\ NoDup ranks /\ length g' = length ranks /\
  (forall k r, nth_error ranks k = Some r -> nth_error g' k = nth_error g r /\ r < length g).
Proof.
  intros N. unfold mpi_incl. destruct (distinct ranks) eqn:D; [|discriminate]. intros E.
  apply distinct_NoDup in D. destruct (omap_nth _ _ _ E) as [L H].
  assert (R : forall k r, nth_error ranks k = Some r -> nth_error g' k = nth_error g r /\ r < length g).
  { intros k r Hk. split; [apply H, Hk|]. apply nth_error_Some. rewrite <- (H k r Hk).
    apply nth_error_Some. rewrite L. apply nth_error_Some. congruence. }
  split; [|auto]. apply NoDup_nth_error. intros i j Hi E'.
  destruct (nth_error ranks i) as [ri|] eqn:Ei; [|apply nth_error_None in Ei; lia].
  destruct (nth_error ranks j) as [rj|] eqn:Ej.
  - destruct (R i ri Ei) as [Ri Li], (R j rj Ej) as [Rj Lj]. rewrite Ri, Rj in E'.
    assert (ri = rj) by (apply (proj1 (NoDup_nth_error g) N); [exact Li|exact E']). subst.
    eapply NoDup_nth_error; [exact D| |congruence]. apply nth_error_Some. congruence.
  - apply nth_error_None in Ej. assert (X : nth_error g' j = None) by (apply nth_error_None; lia).
    apply nth_error_Some in Hi. congruence.
Qed.

Lemma excl_ok g ranks g' : mpi_excl g ranks = Some g' ->
  g' = filter (fun x => match pos x g with Some k => negb (memb k ranks) | None => false end) g.
Proof.
  unfold mpi_excl. destruct (distinct _); [|discriminate]. destruct (forallb _ _); [|discriminate].
  intros [= <-]. reflexivity.
Qed.

Theorem made_ok n o : made n o -> NoDup (raw o) /\ o <> Some [].
Proof.
  induction 1 as [| |p o r o' M [IH IH'] E|p o r o' M [IH IH'] E|a b Ma [Ia _] Mb [Ib _]|a b Ma [Ia _] Mb [Ib _]|a b Ma [Ia _] Mb [Ib _]].
  - split; [constructor|discriminate].
  - rewrite raw_wrap. split; [apply seq_NoDup|apply wrap_ne].
  - unfold include in E. destruct (negb p && _); [injection E as <-; split; [constructor|discriminate]|].
    destruct (mpi_incl (raw o) r) as [g|] eqn:G; [|discriminate]. injection E as <-.
    rewrite raw_wrap. split; [apply (incl_ok _ _ _ IH G)|apply wrap_ne].
  - unfold exclude in E. destruct (negb p && _); [injection E as <-; split; [constructor|discriminate]|].
    destruct (mpi_excl (raw o) r) as [g|] eqn:G; [|discriminate]. injection E as <-.
    rewrite raw_wrap. split; [rewrite (excl_ok _ _ _ G); now apply NoDup_filter|apply wrap_ne].
  - unfold g_union. rewrite raw_wrap. split; [|apply wrap_ne]. apply NoDup_app_intro; [exact Ia|now apply NoDup_filter|].
    intros x Hx Hf. apply filter_In in Hf as [_ Hf]. apply negb_true_iff, memb_out in Hf. tauto.
  - unfold g_inter. rewrite raw_wrap. split; [now apply NoDup_filter|apply wrap_ne].
  - unfold g_diff. rewrite raw_wrap. split; [now apply NoDup_filter|apply wrap_ne].
Qed.

(** ** Ranks and sizes *)
Theorem ranks_ok n o : made n o ->
  (forall p k, g_rank p o = Some k -> k < g_size o) /\
  (forall k, k < g_size o -> exists p, g_rank p o = Some k /\ forall q, g_rank q o = Some k -> q = p) /\
  (g_size o = 0 <-> forall p, ~ member p o).
Proof.
  intros M. destruct (made_ok n o M) as [N _]. rewrite size_raw. split; [|split].
  - intros p k H. rewrite rank_raw in H. apply pos_some in H. apply nth_error_Some. congruence.
  - intros k Hk. destruct (nth_error (raw o) k) as [p|] eqn:E; [|apply nth_error_None in E; lia].
    exists p. rewrite rank_raw. split; [now apply pos_nth|]. intros q Hq. rewrite rank_raw in Hq.
    apply pos_some in Hq. congruence.
  - split.
    + intros H p Hp. apply member_in in Hp. destruct (raw o); [destruct Hp|discriminate].
    + intros H. destruct (raw o) as [|p g] eqn:E; [reflexivity|]. exfalso. apply (H p). apply member_in.
      rewrite E. now left.
Qed.

Theorem include_ok n ptr o ranks o' : made n o -> include ptr o ranks = Some o' ->
  g_size o' = length ranks /\
  forall p k, g_rank p o' = Some k <-> exists r, nth_error ranks k = Some r /\ g_rank p o = Some r.
Proof.
  intros M. destruct (made_ok n o M) as [N _]. unfold include.
  destruct (negb ptr && (length ranks =? 0)) eqn:Q.
  - intros [= <-]. apply andb_prop in Q as [_ Q]. apply Nat.eqb_eq in Q. destruct ranks; [|discriminate].
    split; [reflexivity|]. intros p k. cbn. split; [discriminate|]. intros (r & H & _). destruct k; discriminate.
  - destruct (mpi_incl (raw o) ranks) as [g|] eqn:G; [|discriminate]. intros [= <-].
    destruct (incl_ok _ _ _ N G) as (N' & Nr & L & H). rewrite size_raw, raw_wrap. split; [exact L|].
    intros p k. rewrite !rank_raw, raw_wrap, (pos_nth p g k N'). split.
    + intros E. destruct (nth_error ranks k) as [r|] eqn:Er.
      * exists r. split; [reflexivity|]. apply pos_nth; [exact N|]. rewrite <- (proj1 (H k r Er)). exact E.
      * apply nth_error_None in Er. assert (nth_error g k = None) by (apply nth_error_None; lia). congruence.
    + intros (r & Er & Hr). apply (pos_nth p _ r N) in Hr. rewrite (proj1 (H k r Er)). exact Hr.
Qed.

Theorem include_defined n ptr o ranks : made n o -> NoDup ranks -> (forall r, In r ranks -> r < g_size o) ->
  exists o', include ptr o ranks = Some o'.
Proof.
  intros M Nr H. unfold include. destruct (negb ptr && _); [eauto|]. unfold mpi_incl.
  apply distinct_NoDup in Nr. rewrite Nr.
  destruct (omap_some (fun k => nth_error (raw o) k) ranks) as (g & ->).
  { intros r Hr. apply nth_error_Some. rewrite <- size_raw. auto. }
  cbn. eauto.
Qed.

(** A filtered list keeps the order. *)
Lemma filter_pos f l : NoDup l -> forall p q i j, pos p (filter f l) = Some i -> pos q (filter f l) = Some j ->
  i < j -> exists i' j', pos p l = Some i' /\ pos q l = Some j' /\ i' < j'.
Proof.
  induction l as [|x l IH]; intros N p q i j; cbn [filter]; [discriminate|].
  inversion N as [|? ? Nx Nl]; subst. destruct (f x).
  - cbn [pos]. destruct (Nat.eqb_spec p x) as [->|Np].
    + intros [= <-]. destruct (Nat.eqb_spec q x) as [->|Nq]; [intros [= <-]; lia|].
      destruct (pos q (filter f l)) as [j0|] eqn:Eq; cbn; [|discriminate]. intros [= <-] _.
      assert (Hq : In q l) by (apply (proj1 (filter_In f q l)), pos_in; eauto).
      apply pos_in in Hq as (k & Hk). exists 0, (S k). rewrite Hk. auto with arith.
    + destruct (pos p (filter f l)) as [i0|] eqn:Ep; cbn; [|discriminate]. intros [= <-].
      destruct (Nat.eqb_spec q x) as [->|Nq]; [intros [= <-]; lia|].
      destruct (pos q (filter f l)) as [j0|] eqn:Eq; cbn; [|discriminate]. intros [= <-] L.
      destruct (IH Nl p q i0 j0 Ep Eq) as (i' & j' & A & B & C); [lia|]. rewrite A, B. cbn.
      exists (S i'), (S j'). repeat split; lia.
  - intros Ep Eq L. destruct (IH Nl p q i j Ep Eq L) as (i' & j' & A & B & C). cbn [pos].
    assert (Hp : In p l) by (apply pos_in; eauto). assert (Hq : In q l) by (apply pos_in; eauto).
    destruct (Nat.eqb_spec p x) as [->|Np]; [contradiction|].
    destruct (Nat.eqb_spec q x) as [->|Nq]; [contradiction|]. rewrite A, B. cbn.
    exists (S i'), (S j'). repeat split; lia.
Qed.

Lemma filter_order f l p q : NoDup l -> In p (filter f l) -> In q (filter f l) ->
  ((exists i j, pos p (filter f l) = Some i /\ pos q (filter f l) = Some j /\ i < j) <->
   (exists i j, pos p l = Some i /\ pos q l = Some j /\ i < j)).
Proof.
  intros N Hp Hq. split.
  - intros (i & j & A & B & C). exact (filter_pos f l N p q i j A B C).
  - intros (i & j & A & B & C). apply pos_in in Hp as (i' & Hi), Hq as (j' & Hj).
    destruct (Nat.lt_trichotomy i' j') as [L|[E|L]].
    + eauto 6.
    + subst j'. apply pos_some in Hi, Hj. assert (p = q) by congruence. subst q. assert (i = j) by congruence. lia.
    + destruct (filter_pos f l N q p j' i' Hj Hi L) as (a & b & X & Y & Z). assert (a = j) by congruence.
      assert (b = i) by congruence. lia.
Qed.

Lemma before_raw o p q : before o p q <-> exists i j, pos p (raw o) = Some i /\ pos q (raw o) = Some j /\ i < j.
Proof. unfold before. setoid_rewrite rank_raw. reflexivity. Qed.

Lemma excl_core n ptr o ranks o' : made n o -> exclude ptr o ranks = Some o' -> ptr = true \/ ranks <> [] ->
  raw o' = filter (fun x => match pos x (raw o) with Some k => negb (memb k ranks) | None => false end) (raw o).
Proof.
  intros M E H. unfold exclude in E.
  destruct (negb ptr && (length ranks =? 0)) eqn:Q.
  - exfalso. apply andb_prop in Q as [Q1 Q2]. apply Nat.eqb_eq in Q2. destruct ranks; [|discriminate].
    destruct H as [->|H]; [discriminate|congruence].
  - destruct (mpi_excl (raw o) ranks) as [g|] eqn:G; [|discriminate]. injection E as <-.
    rewrite raw_wrap. now apply excl_ok.
Qed.

Theorem exclude_ok n ptr o ranks o' : made n o -> exclude ptr o ranks = Some o' -> ptr = true \/ ranks <> [] ->
  (forall p, member p o' <-> exists r, g_rank p o = Some r /\ ~ In r ranks) /\
  (forall p q, member p o' -> member q o' -> (before o' p q <-> before o p q)).
Proof.
  intros M E H. destruct (made_ok n o M) as [N _]. pose proof (excl_core n ptr o ranks o' M E H) as R.
  set (f := fun x => _) in R. split.
  - intros p. rewrite member_in, R, filter_In. unfold f. rewrite rank_raw. split.
    + intros [_ Hp]. destruct (pos p (raw o)) as [k|]; [|discriminate].
      exists k. split; [reflexivity|]. apply negb_true_iff, memb_out in Hp. exact Hp.
    + intros (r & Hr & Nr). rewrite Hr. split; [apply pos_in; eauto|]. apply negb_true_iff, memb_out, Nr.
  - intros p q Hp Hq. apply member_in in Hp, Hq. rewrite !before_raw, R in *. apply filter_order; assumption.
Qed.

Theorem exclude_defined n ptr o ranks : made n o -> NoDup ranks -> (forall r, In r ranks -> r < g_size o) ->
  exists o', exclude ptr o ranks = Some o'.
Proof.
  intros M Nr H. unfold exclude. destruct (negb ptr && _); [eauto|]. unfold mpi_excl.
  apply distinct_NoDup in Nr. rewrite Nr.
  assert (F : forallb (fun k => k <? length (raw o)) ranks = true).
  { apply forallb_forall. intros r Hr. apply Nat.ltb_lt. rewrite <- size_raw. auto. }
  rewrite F. cbn. eauto.
Qed.

Lemma pos_app_l x a b k : pos x a = Some k -> pos x (a ++ b) = Some k.
Proof.
  revert k. induction a as [|y a IH]; intros k; cbn [pos app]; [discriminate|].
  destruct (x =? y); [auto|]. destruct (pos x a) as [j|]; cbn; [|discriminate].
  intros [= <-]. rewrite (IH j eq_refl). reflexivity.
Qed.
Lemma pos_app_r x a b : ~ In x a -> pos x (a ++ b) = option_map (fun k => length a + k) (pos x b).
Proof.
  induction a as [|y a IH]; intros H; cbn [pos app length].
  - destruct (pos x b); reflexivity.
  - cbn [In] in H. destruct (Nat.eqb_spec x y) as [->|N]; [tauto|]. rewrite IH by tauto.
    destruct (pos x b); reflexivity.
Qed.

Theorem union_ok n a b : made n a -> made n b ->
  (forall p, member p (g_union a b) <-> member p a \/ member p b) /\
  (forall p k, g_rank p a = Some k -> g_rank p (g_union a b) = Some k) /\
  (forall p q, member p a -> member q b -> ~ member q a -> before (g_union a b) p q) /\
  (forall p q, ~ member p a -> ~ member q a -> member p b -> member q b -> (before (g_union a b) p q <-> before b p q)).
Proof.
  intros Ma Mb. destruct (made_ok n a Ma) as [Na _], (made_ok n b Mb) as [Nb _].
  assert (R : raw (g_union a b) = raw a ++ filter (fun x => negb (memb x (raw a))) (raw b))
    by (unfold g_union, mpi_union; now rewrite raw_wrap).
  set (f := fun x => negb (memb x (raw a))) in R.
  assert (Ff : forall x, In x (filter f (raw b)) <-> In x (raw b) /\ ~ In x (raw a)).
  { intros x. rewrite filter_In. unfold f. now rewrite negb_true_iff, memb_out. }
  split; [|split; [|split]].
  - intros p. rewrite !member_in, R, in_app_iff, Ff. destruct (in_dec Nat.eq_dec p (raw a)); tauto.
  - intros p k. rewrite !rank_raw, R. apply pos_app_l.
  - intros p q Hp Hq Nq. rewrite before_raw, R. rewrite !member_in in *.
    apply pos_in in Hp as (i & Hi). assert (Hq' : In q (filter f (raw b))) by (apply Ff; auto).
    apply pos_in in Hq' as (j & Hj). exists i, (length (raw a) + j). split; [now apply pos_app_l|].
    split; [rewrite pos_app_r by assumption; now rewrite Hj|].
    apply pos_some in Hi. assert (i < length (raw a)) by (apply nth_error_Some; congruence). lia.
  - intros p q Np Nq Hp Hq. rewrite !before_raw, R. rewrite !member_in in *.
    rewrite !pos_app_r by assumption.
    assert (Hp' : In p (filter f (raw b))) by (apply Ff; auto). assert (Hq' : In q (filter f (raw b))) by (apply Ff; auto).
    rewrite <- (filter_order f (raw b) p q Nb Hp' Hq'). split.
    + intros (i & j & A & B & C). destruct (pos p (filter f (raw b))) as [x|]; cbn in A; [|discriminate].
      destruct (pos q (filter f (raw b))) as [y|]; cbn in B; [|discriminate]. injection A as <-. injection B as <-.
      exists x, y. repeat split; lia.
    + intros (i & j & A & B & C). rewrite A, B. cbn. exists (length (raw a) + i), (length (raw a) + j). repeat split; lia.
Qed.

Theorem inter_ok n a b : made n a -> made n b ->
  (forall p, member p (g_inter a b) <-> member p a /\ member p b) /\
  (forall p q, member p (g_inter a b) -> member q (g_inter a b) -> (before (g_inter a b) p q <-> before a p q)).
Proof.
  intros Ma Mb. destruct (made_ok n a Ma) as [Na _].
  assert (R : raw (g_inter a b) = filter (fun x => memb x (raw b)) (raw a)) by (unfold g_inter, mpi_inter; now rewrite raw_wrap).
  split.
  - intros p. rewrite !member_in, R, filter_In, memb_in. tauto.
  - intros p q Hp Hq. rewrite !member_in, !before_raw, R in *. apply filter_order; assumption.
Qed.

Theorem diff_ok n a b : made n a -> made n b ->
  (forall p, member p (g_diff a b) <-> member p a /\ ~ member p b) /\
  (forall p q, member p (g_diff a b) -> member q (g_diff a b) -> (before (g_diff a b) p q <-> before a p q)).
Proof.
  intros Ma Mb. destruct (made_ok n a Ma) as [Na _].
  assert (R : raw (g_diff a b) = filter (fun x => negb (memb x (raw b))) (raw a)) by (unfold g_diff, mpi_diff; now rewrite raw_wrap).
  split.
  - intros p. rewrite !member_in, R, filter_In, negb_true_iff, memb_out. tauto.
  - intros p q Hp Hq. rewrite !member_in, !before_raw, R in *. apply filter_order; assumption.
Qed.

Theorem translate_ok n undef ptr a ranks b : made n a -> made n b -> (forall r, In r ranks -> r < g_size a) ->
  exists out, translate undef ptr a ranks b = Some out /\ length out = length ranks /\
  forall k r p, nth_error ranks k = Some r -> g_rank p a = Some r ->
    nth_error out k = Some (match g_rank p b with Some j => Z.of_nat j | None => undef end).
Proof.
  intros Ma Mb H. destruct (made_ok n a Ma) as [Na _]. unfold translate.
  destruct (negb ptr && (length ranks =? 0)) eqn:Q.
  - apply andb_prop in Q as [_ Q]. apply Nat.eqb_eq in Q. destruct ranks; [|discriminate].
    exists []. split; [reflexivity|]. split; [reflexivity|]. intros [|k]; discriminate.
  - unfold mpi_translate.
    set (f := fun k : nat => x <- nth_error (raw a) k ;; Some (match pos x (raw b) with Some j => Z.of_nat j | None => undef end)).
    destruct (omap_some f ranks) as (out & E).
    { intros r Hr. unfold f. apply H in Hr. rewrite size_raw in Hr.
      destruct (nth_error (raw a) r) eqn:X; [cbn; discriminate|]. apply nth_error_None in X. lia. }
    exists out. split; [exact E|]. destruct (omap_nth _ _ _ E) as [L G]. split; [exact L|].
    intros k r p Hk Hp. rewrite (G k r Hk). unfold f. rewrite rank_raw in Hp.
    apply (pos_nth p _ r Na) in Hp. rewrite Hp. cbn [bind]. now rewrite rank_raw.
Qed.

(** ** Splitting *)
Section Sorting.
Variable key : nat -> Z.
Variable l0 : list nat.
Hypothesis N0 : NoDup l0.

Definition lex (p q : nat) : Prop :=
  (key p < key q)%Z \/ (key p = key q /\ exists i j, pos p l0 = Some i /\ pos q l0 = Some j /\ i < j).

Lemma insert_in x l y : In y (insert_key key x l) <-> y = x \/ In y l.
Proof.
  induction l as [|z l IH]; cbn; [intuition congruence|]. destruct (key x <=? key z)%Z; cbn; [intuition congruence|].
  rewrite IH. tauto.
Qed.
Lemma sort_in l y : In y (sort_key key l) <-> In y l.
Proof. induction l as [|x l IH]; cbn; [tauto|]. rewrite insert_in, IH. intuition congruence. Qed.
Lemma insert_len x l : length (insert_key key x l) = S (length l).
Proof. induction l as [|z l IH]; cbn; [reflexivity|]. destruct (key x <=? key z)%Z; cbn; [reflexivity|]. now rewrite IH. Qed.
Lemma sort_len l : length (sort_key key l) = length l.
Proof. induction l as [|x l IH]; cbn; [reflexivity|]. rewrite insert_len. f_equal. exact IH. Qed.

Lemma insert_NoDup x l : NoDup l -> ~ In x l -> NoDup (insert_key key x l).
Proof.
  induction l as [|z l IH]; intros N H; cbn; [repeat constructor; auto|].
  destruct (key x <=? key z)%Z; [constructor; auto|]. inversion N; subst. constructor.
  - rewrite insert_in. intros [->|X]; [apply H; now left|contradiction].
  - apply IH; auto. intros X. apply H. now right.
Qed.
Lemma sort_NoDup l : NoDup l -> NoDup (sort_key key l).
Proof. induction 1; cbn; [constructor|]. apply insert_NoDup; [assumption|]. intros X. apply (proj1 (sort_in _ _)) in X. contradiction. Qed.

Lemma lex_trans p q s : lex p q -> lex q s -> lex p s.
Proof.
  intros [A|(A & i & j & Pi & Pj & L)] [B|(B & j' & k & Pj' & Pk & L')]; [left; lia|left; lia|left; lia|].
  right. split; [congruence|]. exists i, k. assert (j = j') by congruence. repeat split; auto; lia.
Qed.

Lemma insert_sorted x l : StronglySorted lex l ->
  (forall y, In y l -> exists i j, pos x l0 = Some i /\ pos y l0 = Some j /\ i < j) ->
  StronglySorted lex (insert_key key x l).
Proof.
  induction 1 as [|z l S IH F]; intros H; cbn; [repeat constructor|].
  destruct (Z.leb_spec (key x) (key z)) as [L|L].
  - assert (X : lex x z).
    { destruct (Z.eq_dec (key x) (key z)); [right; split; [assumption|apply H; now left]|left; lia]. }
    constructor; [now constructor|]. constructor; [exact X|].
    rewrite Forall_forall in F |- *. intros y Hy. eapply lex_trans; [exact X|auto].
  - constructor; [apply IH; intros; apply H; now right|].
    rewrite Forall_forall in F |- *. intros y Hy. apply insert_in in Hy as [->|Hy]; [left; lia|auto].
Qed.

Lemma sort_sorted f l : (forall p q i j, pos p (filter f l) = Some i -> pos q (filter f l) = Some j -> i < j ->
    exists i' j', pos p l0 = Some i' /\ pos q l0 = Some j' /\ i' < j') -> NoDup l ->
  StronglySorted lex (sort_key key (filter f l)).
Proof.
  intros H N. apply (NoDup_filter f) in N. revert H N. generalize (filter f l). clear l f.
  induction l as [|x l IH]; intros H N; cbn; [constructor|]. inversion N as [|? ? Nx Nl]; subst.
  apply insert_sorted.
  - apply IH; [|assumption]. intros p q i j Hp Hq L.
    assert (p <> x) by (intros ->; apply Nx, pos_in; eauto). assert (q <> x) by (intros ->; apply Nx, pos_in; eauto).
    apply (H p q (S i) (S j)); [cbn|cbn|lia].
    + destruct (Nat.eqb_spec p x); [contradiction|]. now rewrite Hp.
    + destruct (Nat.eqb_spec q x); [contradiction|]. now rewrite Hq.
  - intros y Hy. apply (proj1 (sort_in l y)) in Hy. assert (y <> x) by (intros ->; contradiction).
    apply pos_in in Hy as (j & Hj). apply (H x y 0 (S j)); [cbn; now rewrite Nat.eqb_refl| |lia].
    cbn. destruct (Nat.eqb_spec y x); [contradiction|]. now rewrite Hj.
Qed.

Lemma sorted_pos l : NoDup l -> StronglySorted lex l -> forall p q i j, pos p l = Some i -> pos q l = Some j -> i < j -> lex p q.
Proof.
  intros N S. induction S as [|x l S IH F]; intros p q i j; cbn [pos]; [discriminate|].
  inversion N as [|? ? Nx Nl]; subst.
  destruct (Nat.eqb_spec p x) as [->|Np].
  - intros [= <-]. destruct (Nat.eqb_spec q x) as [->|Nq]; [intros [= <-]; lia|].
    destruct (pos q l) as [j0|] eqn:Q; cbn; [|discriminate]. intros _ _. rewrite Forall_forall in F. apply F, pos_in. eauto.
  - destruct (pos p l) as [i0|] eqn:P; cbn; [|discriminate]. intros [= <-].
    destruct (Nat.eqb_spec q x) as [->|Nq]; [intros [= <-]; lia|].
    destruct (pos q l) as [j0|] eqn:Q; cbn; [|discriminate]. intros [= <-] L. apply (IH Nl p q i0 j0); auto; lia.
Qed.

Lemma lex_irrefl p : ~ lex p p.
Proof. intros [A|(_ & i & j & A & B & C)]; [lia|]. assert (i = j) by congruence. lia. Qed.

Lemma split_order f p q : In p (filter f l0) -> In q (filter f l0) ->
  ((exists i j, pos p (sort_key key (filter f l0)) = Some i /\ pos q (sort_key key (filter f l0)) = Some j /\ i < j) <-> lex p q).
Proof.
  intros Hp Hq. assert (S : StronglySorted lex (sort_key key (filter f l0))).
  { apply sort_sorted; [|exact N0]. intros a b i j. now apply filter_pos. }
  assert (N : NoDup (sort_key key (filter f l0))) by now apply sort_NoDup, NoDup_filter.
  split.
  - intros (i & j & A & B & C). eapply sorted_pos; eauto.
  - intros X. assert (Hp' := proj2 (sort_in _ p) Hp). assert (Hq' := proj2 (sort_in _ q) Hq).
    apply pos_in in Hp' as (i & Hi), Hq' as (j & Hj). exists i, j. repeat split; auto.
    destruct (Nat.lt_trichotomy i j) as [L|[E|L]]; [assumption| |].
    + subst j. apply pos_some in Hi, Hj. assert (p = q) by congruence. subst. exfalso. eapply lex_irrefl; eauto.
    + exfalso. eapply lex_irrefl. eapply lex_trans; [exact X|]. eapply sorted_pos; eauto.
Qed.
End Sorting.

(** ** Communicators *)
Theorem cmade_ok world c : NoDup world -> cmade world c ->
  (forall id g, c_impl c = Some (id, g) -> NoDup g /\ incl g world /\ c_pvec c = seq 0 (length g)) /\
  (c_impl c = None -> c_pvec c = []).
Proof.
  intros N H. induction H as [k i id|k i|i c [id g] M [IH _] E|i me c g c' n M [IH _] Mg E|i me c col key c' M [IH _] E].
  - split; [|destruct k; discriminate]. intros id' g E. destruct k; injection E as <- <-; (split; [assumption|split; [apply incl_refl|reflexivity]]).
  - split; [destruct k; discriminate|reflexivity].
  - split; [|discriminate]. intros id' g' [= <- <-]. destruct (IH id g E) as (A & B & _). auto.
  - unfold c_sub in E. destruct (c_impl c) as [[id h]|] eqn:I; [|discriminate]. cbn [bind snd] in E.
    destruct (forallb _ _) eqn:F; [|discriminate]. destruct (memb me h); [|discriminate]. injection E as <-.
    destruct (memb me (raw g)); [|split; [discriminate|reflexivity]]. split; [|discriminate].
    intros id' g' [= <- <-]. split; [apply (made_ok n g Mg)|]. split; [|reflexivity].
    intros x Hx. rewrite forallb_forall in F. apply F, memb_in in Hx. destruct (IH id h eq_refl) as (_ & B & _). auto.
  - unfold c_split in E. destruct (c_impl c) as [[id h]|] eqn:I; [|discriminate]. cbn [bind snd] in E.
    destruct (memb me h); [|discriminate]. injection E as <-.
    destruct (IH id h eq_refl) as (A & B & _). unfold mpi_split.
    destruct (col me); cbn [c_make c_impl c_pvec]; [|split; [discriminate|reflexivity]].
    split; [|discriminate]. intros id' g' [= <- <-].
    split; [now apply sort_NoDup, NoDup_filter|]. split; [|reflexivity].
    intros x Hx. apply sort_in, filter_In in Hx. apply B, Hx.
Qed.

Lemma pos_seq k n : forall s, k < n -> pos (s + k) (seq s n) = Some k.
Proof.
  revert k. induction n as [|n IH]; intros k s L; [lia|]. cbn [seq pos].
  destruct k as [|k]; [rewrite Nat.add_0_r, Nat.eqb_refl; reflexivity|].
  destruct (Nat.eqb_spec (s + S k) s); [lia|]. replace (s + S k) with (S s + k) by lia. rewrite IH by lia. reflexivity.
Qed.

Theorem processor_numbers world c : NoDup world -> cmade world c ->
  forall p k, c_rank p c = Some k -> exists n, num_processors c = Some n /\ k < n /\
    c_pvec c = seq 0 n /\ local_processor p c = Some k /\ local_processor_index p c = Some k /\
    forall q, c_rank q c = Some k -> q = p.
Proof.
  intros N M p k R. unfold c_rank in R. destruct (c_impl c) as [[id g]|] eqn:I; [|discriminate]. cbn [bind snd] in R.
  destruct (cmade_ok world c N M) as [H _]. destruct (H id g I) as (Ng & _ & Pv).
  exists (length g). unfold num_processors, c_size, local_processor_index, local_processor, c_rank.
  rewrite I. cbn [bind snd]. rewrite R. cbn [bind]. rewrite Pv.
  assert (Lk : k < length g) by (apply pos_some in R; apply nth_error_Some; congruence).
  repeat split; auto; [exact (pos_seq k (length g) 0 Lk)|]. intros q Q. apply pos_some in Q, R. congruence.
Qed.

Theorem sub_ok world n c g : NoDup world -> cmade world c -> made n g ->
  (forall p, member p g -> exists k, c_rank p c = Some k) ->
  forall i me k, c_rank me c = Some k -> exists c', c_sub i me c g = Some c' /\
    (c_valid c' = true <-> member me g) /\
    (member me g -> forall p, c_rank p c' = g_rank p g) /\ (member me g -> num_processors c' = Some (g_size g)).
Proof.
  intros N M Mg H i me k R. unfold c_rank in R. destruct (c_impl c) as [[id h]|] eqn:I; [|discriminate]. cbn [bind snd] in R.
  unfold c_sub. rewrite I. cbn [bind snd].
  assert (F : forallb (fun x => memb x h) (raw g) = true).
  { apply forallb_forall. intros x Hx. apply memb_in, pos_in. apply member_in in Hx. destruct (H x Hx) as (j & Hj).
    unfold c_rank in Hj. rewrite I in Hj. cbn [bind snd] in Hj. eauto. }
  assert (Mm : memb me h = true) by (apply memb_in, pos_in; eauto). rewrite F, Mm.
  eexists. split; [reflexivity|]. rewrite member_in. destruct (memb me (raw g)) eqn:Q.
  - apply memb_in in Q. split; [split; auto|]. split.
    + intros _ p. unfold c_rank. cbn [c_impl bind snd]. now rewrite rank_raw.
    + intros _. unfold num_processors, c_size. cbn [c_impl bind snd]. now rewrite size_raw.
  - apply memb_out in Q. split; [split; [discriminate|tauto]|]. split; tauto.
Qed.

Lemma same_colour_spec a b : same_colour a b = true <-> exists x, a = Some x /\ b = Some x.
Proof.
  destruct a as [x|], b as [y|]; cbn; (split; [|intros (z & A & B)]); try discriminate.
  - intros H. apply Nat.eqb_eq in H. subst. eauto.
  - injection A as ->. injection B as ->. apply Nat.eqb_refl.
Qed.

Theorem split_ok world c : NoDup world -> cmade world c ->
  forall colour key i me k, c_rank me c = Some k -> exists c', c_split i me c colour key = Some c' /\
    (c_valid c' = true <-> colour me <> None) /\
    (forall x, colour me = Some x -> forall p, (exists j, c_rank p c' = Some j) <-> (exists j, c_rank p c = Some j) /\ colour p = Some x) /\
    (forall p q, (exists j, c_rank p c' = Some j) -> (exists j, c_rank q c' = Some j) ->
       (c_before c' p q <-> (key p < key q)%Z \/ (key p = key q /\ c_before c p q))).
Proof.
  intros N M colour key i me k R. destruct (cmade_ok world c N M) as [H _].
  unfold c_rank in R. destruct (c_impl c) as [[id g]|] eqn:I; [|discriminate]. cbn [bind snd] in R.
  destruct (H id g eq_refl) as (Ng & _ & _).
  assert (Cr : forall p, c_rank p c = pos p g) by (intros p; unfold c_rank; rewrite I; reflexivity).
  unfold c_split. rewrite I. cbn [bind snd]. assert (Mm : memb me g = true) by (apply memb_in, pos_in; eauto). rewrite Mm.
  eexists. split; [reflexivity|]. unfold mpi_split. destruct (colour me) as [x|] eqn:Cm; cbn [c_make].
  - set (f := fun y => same_colour (colour y) (Some x)).
    assert (Cr' : forall p, c_rank p (C (Some (i, sort_key key (filter f g))) (seq 0 (length (sort_key key (filter f g))))) = pos p (sort_key key (filter f g)))
      by reflexivity.
    assert (Ff : forall p, In p (sort_key key (filter f g)) <-> In p g /\ colour p = Some x).
    { intros p. rewrite sort_in, filter_In. unfold f. rewrite same_colour_spec. split.
      - intros [A (y & B & D)]. split; congruence.
      - intros [A B]. split; [assumption|]. exists x. auto. }
    split; [split; [discriminate|reflexivity]|]. split.
    + intros x' [= <-] p. setoid_rewrite Cr'. setoid_rewrite Cr. rewrite <- !pos_in. apply Ff.
    + intros p q Hp Hq. setoid_rewrite Cr' in Hp. setoid_rewrite Cr' in Hq. rewrite <- pos_in in Hp, Hq.
      unfold c_before. setoid_rewrite Cr'. setoid_rewrite Cr.
      apply (split_order key g Ng f p q); apply (proj1 (sort_in key _ _)); assumption.
  - split; [split; [discriminate|congruence]|]. split; [discriminate|]. intros p q (j & Hj). discriminate.
Qed.

Theorem split1_ok world c : NoDup world -> cmade world c ->
  forall colour i me k, c_rank me c = Some k -> exists c', c_split1 i me c colour = Some c' /\
    (forall p q, (exists j, c_rank p c' = Some j) -> (exists j, c_rank q c' = Some j) ->
       (c_before c' p q <-> c_before c p q)).
Proof.
  intros N M colour i me k R. unfold c_split1. set (key := fun p : nat => match c_rank p c with Some k => Z.of_nat k | None => 0%Z end).
  destruct (split_ok world c N M colour key i me k R) as (c' & E & V & Mb & O).
  exists c'. split; [exact E|]. intros p q Hp Hq. rewrite (O p q Hp Hq).
  destruct (colour me) as [x|] eqn:Cm.
  - apply (proj1 (Mb x eq_refl p)) in Hp as [(i1 & P1) _]. apply (proj1 (Mb x eq_refl q)) in Hq as [(j1 & Q1) _].
    unfold key. rewrite P1, Q1. split.
    + intros [L|[_ B]]; [|exact B]. exists i1, j1. repeat split; auto; lia.
    + intros (a & b & A & B & L). left. assert (a = i1) by congruence. assert (b = j1) by congruence. lia.
  - exfalso. destruct Hp as (j & Hj). unfold c_split, mpi_split in E. destruct (c_impl c) as [[id g]|]; [|discriminate].
    cbn [bind snd] in E. destruct (memb me g); [|discriminate]. rewrite Cm in E. injection E as <-. discriminate.
Qed.

(** ** Reductions *)
Lemma fold_add_sum vs : forall v, fold_left Z.add vs v = fold_right Z.add 0%Z (v :: vs).
Proof. induction vs as [|a vs IH]; intros v; cbn [fold_left]; [cbn; lia|]. rewrite IH. cbn. lia. Qed.
Lemma fold_min_ok vs : forall v, In (fold_left Z.min vs v) (v :: vs) /\ forall x, In x (v :: vs) -> (fold_left Z.min vs v <= x)%Z.
Proof.
  induction vs as [|a vs IH]; intros v; cbn [fold_left].
  - split; [now left|]. intros x [->|[]]. lia.
  - destruct (IH (Z.min v a)) as [A B]. split.
    + destruct A as [A|A]; [|right; right; exact A]. rewrite <- A. destruct (Z.min_spec v a) as [[_ ->]|[_ ->]]; [now left|right; now left].
    + intros x [->|[->|H]].
      * specialize (B (Z.min x a) (or_introl eq_refl)). lia.
      * specialize (B (Z.min v x) (or_introl eq_refl)). lia.
      * apply B. now right.
Qed.
Lemma fold_max_ok vs : forall v, In (fold_left Z.max vs v) (v :: vs) /\ forall x, In x (v :: vs) -> (x <= fold_left Z.max vs v)%Z.
Proof.
  induction vs as [|a vs IH]; intros v; cbn [fold_left].
  - split; [now left|]. intros x [->|[]]. lia.
  - destruct (IH (Z.max v a)) as [A B]. split.
    + destruct A as [A|A]; [|right; right; exact A]. rewrite <- A. destruct (Z.max_spec v a) as [[_ ->]|[_ ->]]; [right; now left|now left].
    + intros x [->|[->|H]].
      * specialize (B (Z.max x a) (or_introl eq_refl)). lia.
      * specialize (B (Z.max v x) (or_introl eq_refl)). lia.
      * apply B. now right.
Qed.

Theorem allreduce_integers t v vs : is_integer t ->
  allreduce t Rsum v vs = Some (fold_right Z.add 0%Z (v :: vs)) /\
  (exists m, allreduce t Rmin v vs = Some m /\ In m (v :: vs) /\ forall x, In x (v :: vs) -> (m <= x)%Z) /\
  (exists m, allreduce t Rmax v vs = Some m /\ In m (v :: vs) /\ forall x, In x (v :: vs) -> (x <= m)%Z) /\
  (exists b, allreduce t Rall_true v vs = Some b /\ (b = 1 \/ b = 0)%Z /\ (b = 1%Z <-> forall x, In x (v :: vs) -> x <> 0%Z)) /\
  (exists b, allreduce t Rany_true v vs = Some b /\ (b = 1 \/ b = 0)%Z /\ (b = 1%Z <-> exists x, In x (v :: vs) /\ x <> 0%Z)).
Proof.
  intros T. assert (A : forall o, op_applies o (datatype t) = true).
  { unfold is_integer in T. cbn [In] in T. intros o.
    destruct T as [<-|[<-|[<-|[<-|[<-|[<-|[<-|[]]]]]]]]; destruct o; reflexivity. }
  unfold allreduce. cbn [op_of bind]. rewrite !A. cbn [reduce_with].
  split; [f_equal; apply fold_add_sum|].
  split; [eexists; split; [reflexivity|apply fold_min_ok]|].
  split; [eexists; split; [reflexivity|apply fold_max_ok]|].
  split; (eexists; split; [reflexivity|]).
  - split; [destruct (forallb _ _); cbn; auto|].
    destruct (forallb (fun x => negb (x =? 0)%Z) (v :: vs)) eqn:F; cbn [truth].
    + split; [|reflexivity]. intros _ x Hx. rewrite forallb_forall in F. apply F in Hx.
      apply negb_true_iff, Z.eqb_neq in Hx. exact Hx.
    + split; [discriminate|]. intros H. exfalso.
      assert (forallb (fun x => negb (x =? 0)%Z) (v :: vs) = true); [|congruence].
      apply forallb_forall. intros x Hx. apply negb_true_iff, Z.eqb_neq. auto.
  - split; [destruct (existsb _ _); cbn; auto|].
    destruct (existsb (fun x => negb (x =? 0)%Z) (v :: vs)) eqn:F; cbn [truth].
    + split; [|reflexivity]. intros _. apply existsb_exists in F as (x & Hx & E).
      apply negb_true_iff, Z.eqb_neq in E. eauto.
    + split; [discriminate|]. intros (x & Hx & N). exfalso.
      assert (existsb (fun x => negb (x =? 0)%Z) (v :: vs) = true); [|congruence].
      apply existsb_exists. exists x. split; [exact Hx|]. apply negb_true_iff, Z.eqb_neq. exact N.
Qed.

Theorem allreduce_bools v vs : (forall x, In x (v :: vs) -> (x = 0 \/ x = 1)%Z) ->
  (exists b, allreduce Tbool Rall_true_bool v vs = Some b /\ (b = 1 \/ b = 0)%Z /\ (b = 1%Z <-> forall x, In x (v :: vs) -> x = 1%Z)) /\
  (exists b, allreduce Tbool Rany_true_bool v vs = Some b /\ (b = 1 \/ b = 0)%Z /\ (b = 1%Z <-> exists x, In x (v :: vs) /\ x = 1%Z)).
Proof.
  intros H. unfold allreduce. cbn [op_of bind datatype op_applies c_integer orb reduce_with].
  split; (eexists; split; [reflexivity|]); revert v H; induction vs as [|a vs IH]; intros v H; cbn [fold_left].
  - destruct (H v (or_introl eq_refl)) as [-> | ->].
    + split; [auto|]. split; [discriminate|]. intros X. apply X. now left.
    + split; [auto|]. split; [|auto]. intros _ x [<-|[]]. reflexivity.
  - assert (Hv := H v (or_introl eq_refl)). assert (Ha := H a (or_intror (or_introl eq_refl))).
    destruct (IH (Z.land v a)) as [A B].
    { intros x [<-|Hx]; [destruct Hv as [-> | ->], Ha as [-> | ->]; cbn; auto|]. apply H. right. now right. }
    split; [exact A|]. rewrite B. split.
    + intros X x [<-|[<-|Hx]]; [| |apply X; now right]; specialize (X _ (or_introl eq_refl));
        destruct Hv as [-> | ->], Ha as [-> | ->]; cbn in X; congruence.
    + intros X x [<-|Hx]; [|apply X; right; now right]. rewrite (X v), (X a) by (cbn; auto). reflexivity.
  - destruct (H v (or_introl eq_refl)) as [-> | ->].
    + split; [auto|]. split; [discriminate|]. intros (x & [<-|[]] & X). discriminate.
    + split; [auto|]. split; [|auto]. intros _. exists 1%Z. split; [now left|reflexivity].
  - assert (Hv := H v (or_introl eq_refl)). assert (Ha := H a (or_intror (or_introl eq_refl))).
    destruct (IH (Z.lor v a)) as [A B].
    { intros x [<-|Hx]; [destruct Hv as [-> | ->], Ha as [-> | ->]; cbn; auto|]. apply H. right. now right. }
    split; [exact A|]. rewrite B. split.
    + intros (x & [<-|Hx] & E); [|exists x; split; [right; now right|exact E]].
      destruct Hv as [-> | ->]; [destruct Ha as [-> | ->]; [discriminate|]|].
      * exists 1%Z. split; [right; now left|reflexivity].
      * exists 1%Z. split; [now left|reflexivity].
    + intros (x & [<-|[<-|Hx]] & E).
      * exists (Z.lor v a). split; [now left|]. subst v. destruct Ha as [-> | ->]; reflexivity.
      * exists (Z.lor v a). split; [now left|]. subst a. destruct Hv as [-> | ->]; reflexivity.
      * exists x. split; [now right|exact E].
Qed.

Theorem datatype_size t : msize (datatype t) = csize t.
Proof. induction t; cbn; try reflexivity. rewrite IHt. lia. Qed.

(** ** Threads *)
Lemma lset_at {A} (l : list A) : forall i x j, nth_error (lset l i x) j =
  if (i =? j) && (i <? length l) then Some x else nth_error l j.
Proof.
  induction l as [|a l IH]; intros [|i] x [|j]; cbn; try reflexivity.
  - rewrite andb_false_r. reflexivity.
  - rewrite IH. reflexivity.
Qed.

Definition thr_inv (s : tstate) : Prop :=
  t_first s = false /\ t_ready s = true /\ forall i b, nth_error (t_thr s) i = Some (Got b) -> b = true.

Lemma tstep_inv s i : thr_inv s -> thr_inv (tstep s i).
Proof.
  intros (F & R & G). unfold tstep. rewrite F, R. destruct (nth_error (t_thr s) i) as [x|] eqn:E; [|repeat split; auto].
  assert (L : forall y, (forall b, y = Got b -> b = true) -> forall j b, nth_error (set_thr s i y) j = Some (Got b) -> b = true).
  { intros y Hy j b. unfold set_thr. rewrite lset_at. destruct ((i =? j) && _); [intros [= ->]; now apply Hy|apply G]. }
  destruct x; (split; [reflexivity || exact F|split; [reflexivity || exact R|]]); cbn [t_thr]; try (apply L; intros b X; now inversion X); exact G.
Qed.

Theorem threads_ok s sched : t_first s = false -> t_ready s = true ->
  (forall i b, nth_error (t_thr s) i = Some (Got b) -> b = true) ->
  forall i b, nth_error (t_thr (truns s sched)) i = Some (Got b) -> b = true.
Proof.
  intros F R G. assert (I : thr_inv s) by (repeat split; auto). clear F R G. revert s I.
  induction sched as [|a r IH]; intros s I; cbn [truns fold_left]; [apply I|]. apply IH, tstep_inv, I.
Qed.

(** ** Lifetimes *)
Definition uses (s : life) (b : nat) : Prop := exists i, nth_error (l_slots s) i = Some (Some b).
Lemma used_spec s b : used s b = true <-> uses s b.
Proof.
  unfold used, uses. rewrite existsb_exists. split.
  - intros (x & H & E). destruct x as [c|]; [|discriminate]. apply Nat.eqb_eq in E. subst. now apply In_nth_error.
  - intros (i & H). apply nth_error_In in H. exists (Some b). split; [exact H|apply Nat.eqb_refl].
Qed.

Record linv (s : life) : Prop := {
  li_slots : forall i b, nth_error (l_slots s) i = Some (Some b) -> b < length (l_blocks s);
  li_inj : forall b b' h, nth_error (l_blocks s) b = Some (Blk h true) -> nth_error (l_blocks s) b' = Some (Blk h true) -> b = b';
  li_lt : forall b h, nth_error (l_blocks s) b = Some (Blk h true) -> h < l_next s;
  li_all : forall h, h < l_next s -> exists b, nth_error (l_blocks s) b = Some (Blk h true);
  li_new : forall h, l_next s <= h -> count h (l_freed s) = 0;
  li_used : forall b h, nth_error (l_blocks s) b = Some (Blk h true) -> uses s b -> count h (l_freed s) = 0;
  li_gone : forall b h, nth_error (l_blocks s) b = Some (Blk h true) -> ~ uses s b ->
     count h (l_freed s) <= 1 /\ (l_finalized s = false -> count h (l_freed s) = 1)
}.

Lemma nth_snoc {A} (l : list A) x i y : nth_error (l ++ [x]) i = Some y <->
  nth_error l i = Some y \/ (i = length l /\ y = x).
Proof.
  destruct (Nat.lt_trichotomy i (length l)) as [L|[->|L]].
  - rewrite nth_error_app1 by assumption. split; [auto|]. intros [H|[-> _]]; [assumption|lia].
  - rewrite nth_error_app2, Nat.sub_diag by lia. cbn. split.
    + intros [= ->]. auto.
    + intros [H|[_ ->]]; [|reflexivity]. assert (length l < length l); [apply nth_error_Some; congruence|lia].
  - rewrite nth_error_app2 by lia. destruct (i - length l) as [|k] eqn:E; [lia|]. cbn. split.
    + destruct k; discriminate.
    + intros [H|[-> _]]; [|lia]. assert (i < length l) by (apply nth_error_Some; congruence). lia.
Qed.

Lemma blk_lt {A} (l : list A) b x : nth_error l b = Some x -> b < length l.
Proof. intros H. apply nth_error_Some. congruence. Qed.

Lemma push_inv_owned s : linv s -> linv (push s (l_next s) true (S (l_next s))).
Proof.
  intros I. assert (U : forall b, uses (push s (l_next s) true (S (l_next s))) b <-> uses s b \/ b = length (l_blocks s)).
  { intros b. unfold uses, push. cbn [l_slots]. setoid_rewrite nth_snoc. split.
    - intros (i & [H|[_ H]]); [eauto|]. injection H as ->. auto.
    - intros [(i & H)| ->]; [eauto|]. exists (length (l_slots s)). auto. }
  constructor; cbn [push l_slots l_blocks l_freed l_finalized l_next].
  - intros i b H. rewrite app_length. cbn. apply nth_snoc in H as [H|[_ [= ->]]]; [|lia].
    pose proof (li_slots s I i b H). lia.
  - intros b b' h H H'. apply nth_snoc in H as [H|[-> E]], H' as [H'|[-> E']].
    + eapply li_inj; eauto.
    + injection E' as ->. pose proof (li_lt s I _ _ H). lia.
    + injection E as ->. pose proof (li_lt s I _ _ H'). lia.
    + reflexivity.
  - intros b h H. apply nth_snoc in H as [H|[_ E]]; [pose proof (li_lt s I _ _ H); lia|injection E as ->; lia].
  - intros h H. destruct (Nat.eq_dec h (l_next s)) as [->|N].
    + exists (length (l_blocks s)). apply nth_snoc. auto.
    + destruct (li_all s I h ltac:(lia)) as (b & Hb). exists b. apply nth_snoc. auto.
  - intros h H. apply (li_new s I). lia.
  - intros b h H Hu. apply nth_snoc in H as [H|[-> E]].
    + apply U in Hu as [Hu| ->]; [eapply li_used; eauto|]. apply blk_lt in H. lia.
    + injection E as ->. apply (li_new s I). lia.
  - intros b h H Hu. apply nth_snoc in H as [H|[-> E]].
    + eapply li_gone; eauto. intros X. apply Hu, U. auto.
    + exfalso. apply Hu, U. auto.
Qed.

Lemma push_inv_attached s h0 : linv s -> linv (push s h0 false (l_next s)).
Proof.
  intros I. assert (U : forall b, uses (push s h0 false (l_next s)) b <-> uses s b \/ b = length (l_blocks s)).
  { intros b. unfold uses, push. cbn [l_slots]. setoid_rewrite nth_snoc. split.
    - intros (i & [H|[_ H]]); [eauto|]. injection H as ->. auto.
    - intros [(i & H)| ->]; [eauto|]. exists (length (l_slots s)). auto. }
  assert (B : forall b h, nth_error (l_blocks s ++ [Blk h0 false]) b = Some (Blk h true) <-> nth_error (l_blocks s) b = Some (Blk h true)).
  { intros b h. rewrite nth_snoc. split; [intros [H|[_ H]]; [exact H|discriminate]|auto]. }
  constructor; cbn [push l_slots l_blocks l_freed l_finalized l_next]; setoid_rewrite B || idtac.
  - intros i b H. rewrite app_length. cbn. apply nth_snoc in H as [H|[_ [= ->]]]; [|lia].
    pose proof (li_slots s I i b H). lia.
  - apply (li_inj s I).
  - apply (li_lt s I).
  - apply (li_all s I).
  - apply (li_new s I).
  - intros b h H Hu. apply U in Hu as [Hu| ->]; [eapply li_used; eauto|]. apply blk_lt in H. lia.
  - intros b h H Hu. eapply li_gone; eauto. intros X. apply Hu, U. auto.
Qed.

Lemma count_snoc x l y : count x (l ++ [y]) = count x l + (if Nat.eq_dec y x then 1 else 0).
Proof. unfold count. rewrite count_occ_app. cbn. destruct (Nat.eq_dec y x); lia. Qed.

Lemma release_inv s i x : linv s -> (forall c, x = Some c -> uses s c) -> linv (release s i x).
Proof.
  intros I Hx. unfold release. destruct (nth_error (l_slots s) i) as [old|] eqn:E; [|exact I].
  pose proof (blk_lt _ _ _ E) as Li.
  set (s' := set_slot s i x).
  assert (At : forall j, nth_error (l_slots s') j = if i =? j then Some x else nth_error (l_slots s) j).
  { intros j. unfold s', set_slot. cbn [l_slots]. rewrite lset_at. apply Nat.ltb_lt in Li. rewrite Li, andb_true_r. reflexivity. }
  assert (U : forall c, old <> Some c -> (uses s' c <-> uses s c)).
  { intros c Hc. unfold uses. setoid_rewrite At. split.
    - intros (j & H). destruct (i =? j); [|eauto]. injection H as ->. apply (Hx c eq_refl).
    - intros (j & H). exists j. destruct (Nat.eqb_spec i j) as [->|N]; [congruence|exact H]. }
  assert (U2 : forall c, uses s' c -> uses s c).
  { intros c (j & H). rewrite At in H. destruct (i =? j); [injection H as ->; now apply Hx|exists j; exact H]. }
  assert (Sl : forall j b, nth_error (l_slots s') j = Some (Some b) -> b < length (l_blocks s)).
  { intros j b H. rewrite At in H. destruct (i =? j).
    - injection H as ->. destruct (Hx b eq_refl) as (k & Hk). exact (li_slots s I k b Hk).
    - exact (li_slots s I j b H). }
  assert (Keep : (forall b, old = Some b -> uses s' b) -> linv s').
  { intros K. assert (U3 : forall c, uses s' c <-> uses s c).
    { intros c. destruct old as [b|]; [|apply U; discriminate]. destruct (Nat.eq_dec b c) as [->|N].
      - split; [apply U2|]. intros _. now apply K.
      - apply U. congruence. }
    constructor; try (apply I).
    - exact Sl.
    - intros b h H Hu. apply (li_used s I b h H), U3, Hu.
    - intros b h H Hu. apply (li_gone s I b h H). intros X. apply Hu, U3, X. }
  destruct old as [b|]; [|apply Keep; discriminate].
  destruct (used s' b) eqn:Us.
  - apply Keep. intros b' [= <-]. now apply used_spec.
  - assert (Nu : ~ uses s' b) by (intros X; apply used_spec in X; congruence).
    assert (Ub : uses s b) by (exists i; exact E).
    unfold deleter. change (l_blocks s') with (l_blocks s). change (l_finalized s') with (l_finalized s).
    destruct (nth_error (l_blocks s) b) as [[h o]|] eqn:Eb.
    2:{ exfalso. apply nth_error_None in Eb. pose proof (li_slots s I i b E). lia. }
    cbn [b_owned b_handle]. destruct (o && negb (l_finalized s)) eqn:Q.
    + apply andb_prop in Q as [-> Q]. apply negb_true_iff in Q.
      assert (C0 : count h (l_freed s) = 0) by (eapply li_used; eauto).
      constructor; cbn [l_slots l_blocks l_freed l_finalized l_next]; try (apply I).
      * exact Sl.
      * intros h' H'. change (l_freed s') with (l_freed s). rewrite count_snoc.
        pose proof (li_lt s I b h Eb). destruct (Nat.eq_dec h h'); [change (l_next s') with (l_next s) in H'; lia|].
        rewrite (li_new s I h' H'). reflexivity.
      * intros b' h' H' Hu. change (l_freed s') with (l_freed s). rewrite count_snoc.
        assert (Hu' : uses s' b') by exact Hu.
        destruct (Nat.eq_dec h h') as [<-|N].
        -- assert (b' = b) by (eapply li_inj; eauto). subst. contradiction.
        -- rewrite (li_used s I b' h' H' (U2 b' Hu')). reflexivity.
      * intros b' h' H' Hu. change (l_freed s') with (l_freed s). rewrite count_snoc.
        assert (Hu' : ~ uses s' b') by exact Hu. change (l_finalized s') with (l_finalized s).
        destruct (Nat.eq_dec h h') as [<-|N]; [lia|].
        rewrite Nat.add_0_r. apply (li_gone s I b' h' H'). intros X. apply Hu', U; [|exact X].
        intros [= <-]. congruence.
    + constructor; try (apply I).
      * exact Sl.
      * intros b' h' H' Hu. apply (li_used s I b' h' H' (U2 b' Hu)).
      * intros b' h' H' Hu. destruct (Nat.eq_dec b b') as [<-|N].
        -- change (l_blocks s') with (l_blocks s) in H'. assert (Blk h o = Blk h' true) by congruence.
           assert (o = true) by congruence. assert (h = h') by congruence. subst o h'. cbn in Q. apply negb_false_iff in Q.
           change (l_freed s') with (l_freed s). rewrite (li_used s I b h Eb Ub).
           split; [lia|]. change (l_finalized s') with (l_finalized s). congruence.
        -- apply (li_gone s I b' h' H'). intros X. apply Hu, U; [congruence|exact X].
Qed.

Lemma snoc_inv s x : linv s -> (forall c, x = Some c -> uses s c) ->
  linv (L (l_blocks s) (l_slots s ++ [x]) (l_freed s) (l_finalized s) (l_next s)).
Proof.
  intros I Hx. set (s' := L _ _ _ _ _).
  assert (U : forall b, uses s' b <-> uses s b).
  { intros b. unfold uses, s'. cbn [l_slots]. setoid_rewrite nth_snoc. split.
    - intros (i & [H|[_ H]]); [eauto|]. now apply Hx.
    - intros (i & H). eauto. }
  constructor; try (apply I).
  - intros i b H. apply nth_snoc in H as [H|[_ H]]; [apply (li_slots s I i b H)|].
    destruct (Hx b (eq_sym H)) as (k & Hk). exact (li_slots s I k b Hk).
  - intros b h H Hu. apply (li_used s I b h H), U, Hu.
  - intros b h H Hu. apply (li_gone s I b h H). intros X. apply Hu, U, X.
Qed.

Lemma lstep_inv s o : linv s -> linv (lstep s o).
Proof.
  intros I. destruct o as [[| |] h| | |i|i j|i|]; cbn [lstep].
  - now apply push_inv_owned.
  - now apply push_inv_owned.
  - now apply push_inv_attached.
  - now apply push_inv_owned.
  - apply snoc_inv; [exact I|discriminate].
  - destruct (nth_error (l_slots s) i) as [x|] eqn:E; [|exact I]. apply snoc_inv; [exact I|].
    intros c ->. exists i. exact E.
  - destruct (nth_error (l_slots s) j) as [x|] eqn:E; [|exact I]. apply release_inv; [exact I|].
    intros c ->. exists j. exact E.
  - apply release_inv; [exact I|discriminate].
  - constructor; try (apply I). intros b h H Hu. split; [apply (li_gone s I b h H Hu)|discriminate].
Qed.

Lemma linv0 : linv life0.
Proof.
  constructor; cbn; try lia; try (intros [|?]; discriminate); reflexivity.
Qed.

Lemma lruns_inv ops : linv (lruns ops).
Proof.
  unfold lruns. generalize linv0. generalize life0. induction ops as [|o r IH]; intros s I; [exact I|].
  cbn [fold_left]. apply IH, lstep_inv, I.
Qed.

Lemma in_use_uses s h : linv s -> (in_use s h <-> exists b, nth_error (l_blocks s) b = Some (Blk h true) /\ uses s b).
Proof.
  intros I. unfold in_use, uses. split.
  - intros (i & b & A & B). eauto.
  - intros (b & A & i & B). eauto.
Qed.

Theorem lifetimes ops h : let s := lruns ops in
  (in_use s h -> count h (l_freed s) = 0) /\ count h (l_freed s) <= 1 /\
  (h < l_next s -> ~ in_use s h -> l_finalized s = false -> count h (l_freed s) = 1) /\
  (l_next s <= h -> count h (l_freed s) = 0).
Proof.
  intros s. pose proof (lruns_inv ops) as I. fold s in I. rewrite (in_use_uses s h I).
  split; [|split; [|split]].
  - intros (b & A & B). exact (li_used s I b h A B).
  - destruct (le_lt_dec (l_next s) h) as [L|L]; [rewrite (li_new s I h L); lia|].
    destruct (li_all s I h L) as (b & Hb). destruct (used s b) eqn:U.
    + apply used_spec in U. rewrite (li_used s I b h Hb U). lia.
    + apply (li_gone s I b h Hb). intros X. apply used_spec in X. congruence.
  - intros L N F. destruct (li_all s I h L) as (b & Hb). apply (li_gone s I b h Hb); [|exact F]. intros X. apply N. eauto.
  - apply (li_new s I).
Qed.

Lemma release_finalized s i x : l_finalized s = true -> l_freed (release s i x) = l_freed s /\ l_finalized (release s i x) = true.
Proof.
  intros F. unfold release. destruct (nth_error (l_slots s) i) as [[b|]|]; [|auto|auto].
  destruct (used _ b); [auto|]. unfold deleter. change (l_finalized (set_slot s i x)) with (l_finalized s). rewrite F.
  destruct (nth_error _ b); [|auto]. rewrite andb_false_r. auto.
Qed.

Theorem after_finalize ops more : l_finalized (lruns ops) = true -> l_freed (lruns (ops ++ more)) = l_freed (lruns ops).
Proof.
  unfold lruns. rewrite fold_left_app. generalize (fold_left lstep ops life0). 
  assert (Q : forall s, l_finalized s = true -> l_freed (fold_left lstep more s) = l_freed s); [|exact Q].
  induction more as [|o r IH]; intros s F; [reflexivity|]. cbn [fold_left].
  assert (X : l_freed (lstep s o) = l_freed s /\ l_finalized (lstep s o) = true).
  { destruct o as [[| |] h| | |i|i j|i|]; cbn [lstep]; try (split; [reflexivity|exact F]).
    - destruct (nth_error (l_slots s) i); split; auto.
    - destruct (nth_error (l_slots s) j); [now apply release_finalized|auto].
    - now apply release_finalized.
    - split; reflexivity. }
  rewrite IH by apply X. apply X.
Qed.

Theorem group_ok world c : NoDup world -> cmade world c -> c_valid c = true ->
  exists g, c_group c = Some g /\ (forall p, g_rank p g = c_rank p c) /\ Some (g_size g) = num_processors c.
Proof.
  intros N M V. unfold c_valid in V. destruct (c_impl c) as [[id g]|] eqn:I; [|discriminate].
  exists (wrap g). unfold c_group, c_rank, num_processors, c_size. rewrite I. cbn [bind snd].
  split; [reflexivity|]. split; [intros p; now rewrite rank_raw, raw_wrap|]. now rewrite size_raw, raw_wrap.
Qed.

Theorem equal_ok c : c_valid c = true -> c_eq c c = Some true.
Proof. unfold c_valid, c_eq. destruct (c_impl c) as [[id g]|]; [|discriminate]. cbn. now rewrite Nat.eqb_refl. Qed.

Lemma exclude_none l : filter (fun x => match pos x l with Some k => negb (memb k []) | None => false end) l = l.
Proof.
  assert (H : forall f (m : list nat), (forall x, In x m -> f x = true) -> filter f m = m).
  { intros f m. induction m as [|x m IH]; intros H; cbn; [reflexivity|]. rewrite (H x (or_introl eq_refl)), IH; [reflexivity|].
    intros; apply H; now right. }
  apply H. intros x Hx. apply pos_in in Hx as (k & ->). reflexivity.
Qed.

Lemma release_keeps s i x : l_next (release s i x) = l_next s /\ l_finalized (release s i x) = l_finalized s.
Proof.
  unfold release. destruct (nth_error (l_slots s) i) as [[b|]|]; [|auto|auto].
  destruct (used _ b); [auto|]. unfold deleter. destruct (nth_error _ b); [|auto]. destruct (_ && _); auto.
Qed.

Lemma lruns_snoc ops o : lruns (ops ++ [o]) = lstep (lruns ops) o.
Proof. unfold lruns. rewrite fold_left_app. reflexivity. Qed.

Lemma next_made ops : l_next (lruns ops) = owned_made ops.
Proof.
  induction ops as [|o ops IH] using rev_ind; [reflexivity|]. rewrite lruns_snoc. unfold owned_made.
  rewrite filter_app, app_length. fold (owned_made ops). rewrite <- IH. set (s := lruns ops).
  destruct o as [[| |] h| | |i|i j|i|]; cbn [lstep filter length push l_next]; try lia.
  - destruct (nth_error (l_slots s) i); cbn [l_next]; lia.
  - destruct (nth_error (l_slots s) j); [rewrite (proj1 (release_keeps _ _ _))|]; lia.
  - rewrite (proj1 (release_keeps _ _ _)). lia.
Qed.

Lemma finalized_iff ops : l_finalized (lruns ops) = true <-> In LFinalize ops.
Proof.
  induction ops as [|o ops IH] using rev_ind; [split; [discriminate|intros []]|]. rewrite lruns_snoc, in_app_iff, <- IH.
  set (s := lruns ops). cbn [In].
  assert (K : forall t, l_finalized t = l_finalized s -> o <> LFinalize -> l_finalized t = true <-> l_finalized s = true \/ o = LFinalize \/ False).
  { intros t -> N. intuition congruence. }
  destruct o as [[| |] h| | |i|i j|i|]; cbn [lstep]; try (apply K; [reflexivity|discriminate]).
  - apply K; [destruct (nth_error (l_slots s) i); reflexivity|discriminate].
  - apply K; [|discriminate]. destruct (nth_error (l_slots s) j); [apply release_keeps|reflexivity].
  - apply K; [apply release_keeps|discriminate].
  - cbn. tauto.
Qed.

Theorem lifetimes_history ops h : let s := lruns ops in
  (in_use s h -> count h (l_freed s) = 0) /\ count h (l_freed s) <= 1 /\
  (h < owned_made ops -> ~ in_use s h -> ~ In LFinalize ops -> count h (l_freed s) = 1) /\
  (owned_made ops <= h -> count h (l_freed s) = 0).
Proof.
  intros s. destruct (lifetimes ops h) as (A & B & D & E). fold s in A, B, D, E. unfold s in D, E. rewrite next_made in D, E.
  repeat split; auto. intros L N F. apply D; auto. destruct (l_finalized (lruns ops)) eqn:Q; [|reflexivity].
  apply finalized_iff in Q. contradiction.
Qed.

Theorem nothing_after_finalize ops more : In LFinalize ops -> l_freed (lruns (ops ++ more)) = l_freed (lruns ops).
Proof. intros H. apply after_finalize, finalized_iff, H. Qed.

Theorem duplicate_differs i id g : i <> id ->
  c_eq (c_make Attach i (Some (id, g))) (c_make Duplicate i (Some (id, g))) = Some false /\
  c_eq (c_make Attach i (Some (id, g))) (c_make TakeOwnership i (Some (id, g))) = Some true.
Proof.
  intros N. unfold c_eq, c_make. cbn. rewrite Nat.eqb_refl. split; [|reflexivity].
  destruct (Nat.eqb_spec id i); congruence.
Qed.
