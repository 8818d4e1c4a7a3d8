(** Lemmas about the identifiers of Hdf5.v. *)
From Coq Require Import ZArith List Lia Bool Arith.
From Verif Require Import Base Hdf5.
Import ListNotations.
Open Scope Z_scope.

Definition holds (s : state) (h : nat + nat) (i : Z) : Prop :=
  match h with
  | inl f => files s f = Some i
  | inr x => exists d, dsets s x = Some d /\ impl d = i /\ i <> 0
  end.

Definition lib_ok (l : lib) : Prop := (forall i, In i (open l) -> 1 <= i < next l) /\ 1 <= next l /\ NoDup (open l) /\ errors l = 0%nat.

Record inv (s : state) (p : list op) : Prop := Inv {
  i_lib : lib_ok (library s);
  i_in : forall h i, holds s h i -> In i (open (library s));
  i_one : forall h h' i, holds s h i -> holds s h' i -> h = h';
  i_all : forall i, In i (open (library s)) -> exists h, holds s h i;
  i_files : forall f, files_alive p f = true <-> files s f <> None;
  i_dsets : forall x, dsets_alive p x = true <-> dsets s x <> None;
  i_data : forall x d, dsets s x = Some d -> (has_data p x = true <-> impl d <> 0) }.

Lemma new_ok l : lib_ok l -> let (i, l1) := h5_new l in
  lib_ok l1 /\ ~ In i (open l) /\ i <> 0 /\ (forall j, In j (open l1) <-> j = i \/ In j (open l)).
Proof.
  intros [A [B [C D]]]. cbn. assert (N : ~ In (next l) (open l)) by (intros X; apply A in X; lia).
  split; [|split; [exact N|split; [lia|]]].
  - split; [|split; [cbn; lia|split; [constructor; assumption|exact D]]].
    cbn. intros j [<-|J]; [lia|]. apply A in J. lia.
  - intros j. split; intros [X|X]; auto.
Qed.

Lemma close_in i l : lib_ok l -> In i (open l) -> lib_ok (h5_close i l) /\ (forall j, In j (open (h5_close i l)) <-> j <> i /\ In j (open l)).
Proof.
  intros [A [B [C D]]] I. unfold h5_close.
  replace (existsb (Z.eqb i) (open l)) with true.
  2:{ symmetry. apply existsb_exists. exists i. split; [exact I|apply Z.eqb_refl]. }
  assert (K : forall j, In j (remove Z.eq_dec i (open l)) <-> j <> i /\ In j (open l)).
  { intros j. split.
    - intros X. apply in_remove in X. tauto.
    - intros [X Y]. apply in_in_remove; assumption. }
  split; [|exact K]. split; [|split; [exact B|split; [|exact D]]].
  - cbn. intros j J. apply K in J. apply A. tauto.
  - cbn. clear - C. induction (open l) as [|a r IH]; cbn; [constructor|]. inversion C as [|? ? N M]; subst.
    destruct (Z.eq_dec i a); [apply IH; exact M|]. constructor; [|apply IH; exact M].
    intros X. apply in_remove in X. tauto.
Qed.

Lemma is_open_in i l : is_open i l = true <-> In i (open l).
Proof.
  unfold is_open. rewrite existsb_exists. split; [intros [j [X Y]]; apply Z.eqb_eq in Y; subst; exact X|].
  intros X. exists i. split; [exact X|apply Z.eqb_refl].
Qed.

(** A space, opened and closed. *)
Lemma temp_ok a l : lib_ok l -> In a (open l) -> lib_ok (query_dimensionality a l) /\ (forall j, In j (open (query_dimensionality a l)) <-> In j (open l)).
Proof.
  intros H Ha. unfold query_dimensionality, h5_get. rewrite (proj2 (is_open_in a l) Ha). pose proof (new_ok l H) as N. destruct (h5_new l) as [i l1].
  destruct N as [N1 [N2 [_ N3]]]. assert (Hi : In i (open l1)) by (apply N3; left; reflexivity).
  unfold h5_use. rewrite (proj2 (is_open_in i l1) Hi). destruct (close_in i l1 N1 Hi) as [C1 C2].
  split; [exact C1|]. intros j. rewrite C2, N3. split; [tauto|]. intros J. split; [|tauto]. intros ->. contradiction.
Qed.

Lemma extent_ok D a l : lib_ok l -> In a (open l) -> exists l', query_extent D D a l = Some l' /\ lib_ok l' /\ (forall j, In j (open l') <-> In j (open l)).
Proof.
  intros H Ha. destruct (temp_ok a l H Ha) as [A B]. unfold query_extent. unfold query_dimensionality in A, B.
  rewrite Nat.ltb_irrefl, Nat.eqb_refl. unfold h5_get in *. rewrite (proj2 (is_open_in a l) Ha) in *.
  pose proof (new_ok l H) as N. destruct (h5_new l) as [i l1]. destruct N as [_ [_ [_ N3]]].
  rewrite (proj2 (is_open_in i l1)) by (apply N3; left; reflexivity). cbn [andb]. eexists. split; [reflexivity|]. split; assumption.
Qed.

Lemma use_ok a l : In a (open l) -> h5_use a l = l.
Proof. intros H. unfold h5_use. rewrite (proj2 (is_open_in a l) H). reflexivity. Qed.

Lemma set_same {A} (f : nat -> option A) x v : set f x v x = v.
Proof. unfold set. rewrite Nat.eqb_refl. reflexivity. Qed.
Lemma set_other {A} (f : nat -> option A) x v y : y <> x -> set f x v y = f y.
Proof. intros H. unfold set. replace (y =? x)%nat with false by (symmetry; apply Nat.eqb_neq; exact H). reflexivity. Qed.

(** Only the library changes, and not what is open. *)
Lemma inv_lib s p o l : inv s p -> lib_ok l -> (forall j, In j (open l) <-> In j (open (library s))) ->
  (forall f, files_alive (o :: p) f = files_alive p f) -> (forall x, dsets_alive (o :: p) x = dsets_alive p x) ->
  (forall x, has_data (o :: p) x = has_data p x) -> inv (with_lib s l) (o :: p).
Proof.
  intros [A B C D E F G] L K Ef Ed Eh. constructor.
  - exact L.
  - intros h i H. apply K. apply (B h). exact H.
  - intros h h' i H H'. apply (C h h' i); assumption.
  - intros i I. apply K in I. apply D in I. exact I.
  - intros f. rewrite Ef. apply E.
  - intros x. rewrite Ed. apply F.
  - intros x d Hx. rewrite Eh. apply G. exact Hx.
Qed.

Lemma inv_same s p o : inv s p -> (forall f, files_alive (o :: p) f = files_alive p f) -> (forall x, dsets_alive (o :: p) x = dsets_alive p x) ->
  (forall x, has_data (o :: p) x = has_data p x) -> inv s (o :: p).
Proof.
  intros H Ef Ed Eh. pose proof (inv_lib s p o (library s) H) as X. destruct s as [l fs ds]. apply X; auto. apply H. intros j; tauto.
Qed.


Lemma step_inv s p o : inv s p -> well_scoped (o :: p) -> careful (o :: p) ->
  exists s', (step s o = Ok s' \/ step s o = Threw s') /\ inv s' (o :: p).
Proof.
  intros H [_ W] [_ Q]. pose proof H as H0. destruct H0 as [A B C D E F G].
  destruct o as [f ok|f|x f ok|x f|y x|y x|x|x|dim x rank|x cplx|dim x rank cplx|x cplx ok]; cbn [step].
  - (* OpenFile *)
    destruct ok; [|exists s; split; [right; reflexivity|]; apply inv_same; auto; intros; reflexivity].
    pose proof (new_ok (library s) A) as N. destruct (h5_new (library s)) as [i l1]. destruct N as [N1 [N2 [N3 N4]]].
    eexists. split; [left; reflexivity|].
    assert (Hf : files s f = None).
    { destruct (files s f) eqn:X; [|reflexivity]. exfalso. assert (Y : files s f <> None) by congruence. apply E in Y. congruence. }
    assert (T : forall h j, holds (State l1 (set (files s) f (Some i)) (dsets s)) h j <-> (h = inl f /\ j = i) \/ holds s h j).
    { intros [g|x] j; cbn [holds files dsets].
      - destruct (Nat.eq_dec g f) as [->|Ng].
        + rewrite set_same, Hf. split; [intros X; injection X as <-; left; auto|intros [[_ ->]|X]; [reflexivity|discriminate]].
        + rewrite set_other by exact Ng. split; [auto|]. intros [[X _]|X]; [injection X as X; contradiction|exact X].
      - split; [auto|]. intros [[X _]|X]; [discriminate|exact X]. }
    constructor; cbn [library files dsets].
    + exact N1.
    + intros h j X. apply T in X. apply N4. destruct X as [[_ ->]|X]; [left; reflexivity|right; apply (B h); exact X].
    + intros h h' j X Y. apply T in X, Y. destruct X as [[-> ->]|X], Y as [[-> Yj]|Y]; auto.
      * exfalso. apply N2. apply (B h'). exact Y.
      * exfalso. apply N2. rewrite <- Yj. apply (B h). exact X.
      * apply (C h h' j); assumption.
    + intros j J. apply N4 in J. destruct J as [->|J].
      * exists (inl f). apply T. left. auto.
      * apply D in J. destruct J as [h Hh]. exists h. apply T. right. exact Hh.
    + intros g. cbn [files_alive]. destruct (Nat.eqb_spec f g) as [->|Ng].
      * rewrite set_same. split; [discriminate|reflexivity].
      * rewrite set_other by auto. apply E.
    + exact F.
    + exact G.
  - (* CloseFile *)
    cbn in W. destruct (files s f) as [i|] eqn:Hf; [|exfalso; apply E in W; congruence].
    assert (I : In i (open (library s))) by (apply (B (inl f)); exact Hf).
    destruct (close_in i _ A I) as [C1 C2]. eexists. split; [left; reflexivity|].
    assert (T : forall h j, holds (State (h5_close i (library s)) (set (files s) f None) (dsets s)) h j <-> h <> inl f /\ holds s h j).
    { intros [g|x] j; cbn [holds files dsets].
      - destruct (Nat.eq_dec g f) as [->|Ng].
        + rewrite set_same. split; [discriminate|intros [X _]; exfalso; apply X; reflexivity].
        + rewrite set_other by exact Ng. split; [intros X; split; [intros Y; injection Y as Y; contradiction|exact X]|tauto].
      - split; [intros X; split; [discriminate|exact X]|tauto]. }
    constructor; cbn [library files dsets].
    + exact C1.
    + intros h j X. apply T in X. destruct X as [X Y]. apply C2. split; [|apply (B h); exact Y].
      intros ->. apply X. apply (C h (inl f) i); [exact Y|exact Hf].
    + intros h h' j X Y. apply T in X, Y. apply (C h h' j); tauto.
    + intros j J. apply C2 in J. destruct J as [J1 J2]. apply D in J2. destruct J2 as [h Hh]. exists h. apply T. split; [|exact Hh].
      intros ->. cbn [holds] in Hh. congruence.
    + intros g. cbn [files_alive]. destruct (Nat.eqb_spec f g) as [->|Ng].
      * rewrite set_same. split; [discriminate|congruence].
      * rewrite set_other by auto. apply E.
    + exact F.
    + exact G.
  - (* OpenDataset *)
    cbn in W. destruct W as [W1 W2]. destruct (files s f) as [i|] eqn:Hf; [|exfalso; apply E in W2; congruence].
    destruct ok; [|exists s; split; [right; reflexivity|]; apply inv_same; auto; intros; reflexivity].
    pose proof (new_ok (library s) A) as N. destruct (h5_new (library s)) as [k l1]. destruct N as [N1 [N2 [N3 N4]]].
    eexists. split; [left; reflexivity|].
    assert (Hx : dsets s x = None).
    { destruct (dsets s x) eqn:X; [|reflexivity]. exfalso. assert (Y : dsets s x <> None) by congruence. apply F in Y. congruence. }
    assert (T : forall h j, holds (State l1 (files s) (set (dsets s) x (Some (Dset k i)))) h j <-> (h = inr x /\ j = k) \/ holds s h j).
    { intros [g|z] j; cbn [holds files dsets].
      - split; [auto|]. intros [[X _]|X]; [discriminate|exact X].
      - destruct (Nat.eq_dec z x) as [->|Ng].
        + rewrite set_same. split.
          * intros [d [X [Y Z]]]. injection X as <-. left. cbn in Y. auto.
          * intros [[_ ->]|[d [X _]]]; [|congruence]. eexists. split; [reflexivity|]. cbn. auto.
        + rewrite set_other by exact Ng. split; [auto|]. intros [[X _]|X]; [injection X as X; contradiction|exact X]. }
    constructor; cbn [library files dsets].
    + exact N1.
    + intros h j X. apply T in X. apply N4. destruct X as [[_ ->]|X]; [left; reflexivity|right; apply (B h); exact X].
    + intros h h' j X Y. apply T in X, Y. destruct X as [[-> ->]|X], Y as [[-> Yj]|Y]; auto.
      * exfalso. apply N2. apply (B h'). exact Y.
      * exfalso. apply N2. rewrite <- Yj. apply (B h). exact X.
      * apply (C h h' j); assumption.
    + intros j J. apply N4 in J. destruct J as [->|J].
      * exists (inr x). apply T. left. auto.
      * apply D in J. destruct J as [h Hh]. exists h. apply T. right. exact Hh.
    + exact E.
    + intros z. cbn [dsets_alive]. destruct (Nat.eqb_spec x z) as [->|Ng].
      * rewrite set_same. split; [discriminate|reflexivity].
      * rewrite set_other by auto. apply F.
    + intros z d. cbn [has_data]. destruct (Nat.eqb_spec x z) as [->|Ng].
      * rewrite set_same. intros X. injection X as <-. cbn. tauto.
      * rewrite set_other by auto. apply G.
  - (* CreateDataset *)
    cbn in W. destruct W as [W1 W2]. destruct (files s f) as [i|] eqn:Hf; [|exfalso; apply E in W2; congruence].
    eexists. split; [left; reflexivity|].
    assert (Hx : dsets s x = None).
    { destruct (dsets s x) eqn:X; [|reflexivity]. exfalso. assert (Y : dsets s x <> None) by congruence. apply F in Y. congruence. }
    assert (T : forall h j, holds (State (library s) (files s) (set (dsets s) x (Some (Dset 0 i)))) h j <-> holds s h j).
    { intros [g|z] j; cbn [holds files dsets]; [tauto|].
      destruct (Nat.eq_dec z x) as [->|Ng].
      - rewrite set_same, Hx. split; [intros [d [X [Y Z]]]; injection X as <-; cbn in Y; congruence|intros [d [X _]]; discriminate].
      - rewrite set_other by exact Ng. tauto. }
    constructor; cbn [library files dsets].
    + exact A.
    + intros h j X. apply T in X. apply (B h). exact X.
    + intros h h' j X Y. apply T in X, Y. apply (C h h' j); assumption.
    + intros j J. apply D in J. destruct J as [h Hh]. exists h. apply T. exact Hh.
    + exact E.
    + intros z. cbn [dsets_alive]. destruct (Nat.eqb_spec x z) as [->|Ng].
      * rewrite set_same. split; [discriminate|reflexivity].
      * rewrite set_other by auto. apply F.
    + intros z d. cbn [has_data]. destruct (Nat.eqb_spec x z) as [->|Ng].
      * rewrite set_same. intros X. injection X as <-. cbn. split; [discriminate|congruence].
      * rewrite set_other by auto. apply G.
  - destruct Q.
  - destruct Q.
  - (* Destroy *)
    cbn in W. destruct (dsets s x) as [d|] eqn:Hx; [|exfalso; apply F in W; congruence].
    eexists. split; [left; reflexivity|].
    set (l1 := if impl d =? 0 then library s else h5_close (impl d) (library s)).
    assert (L : lib_ok l1 /\ forall j, In j (open l1) <-> (impl d <> 0 -> j <> impl d) /\ In j (open (library s))).
    { subst l1. destruct (Z.eqb_spec (impl d) 0) as [Z0|Z0].
      - split; [exact A|]. intros j. split; [|tauto]. intros J. split; [congruence|exact J].
      - destruct (close_in (impl d) _ A) as [C1 C2]; [apply (B (inr x)); exists d; auto|]. split; [exact C1|].
        intros j. rewrite C2. tauto. }
    destruct L as [L1 L2].
    assert (T : forall h j, holds (State l1 (files s) (set (dsets s) x None)) h j <-> h <> inr x /\ holds s h j).
    { intros [g|z] j; cbn [holds files dsets].
      - split; [intros X; split; [discriminate|exact X]|tauto].
      - destruct (Nat.eq_dec z x) as [->|Ng].
        + rewrite set_same. split; [intros [e [X _]]; discriminate|intros [X _]; exfalso; apply X; reflexivity].
        + rewrite set_other by exact Ng. split; [intros X; split; [intros Y; injection Y as Y; contradiction|exact X]|tauto]. }
    constructor; cbn [library files dsets].
    + exact L1.
    + intros h j X. apply T in X. destruct X as [X Y]. apply L2. split; [|apply (B h); exact Y].
      intros Z0 ->. apply X. apply (C h (inr x) (impl d)); [exact Y|exists d; auto].
    + intros h h' j X Y. apply T in X, Y. apply (C h h' j); tauto.
    + intros j J. apply L2 in J. destruct J as [J1 J2]. apply D in J2. destruct J2 as [h Hh]. exists h. apply T. split; [|exact Hh].
      intros ->. destruct Hh as [e [X [Y Z0]]]. assert (e = d) by congruence. subst e. subst j. apply J1; auto.
    + exact E.
    + intros z. cbn [dsets_alive]. destruct (Nat.eqb_spec x z) as [->|Ng].
      * rewrite set_same. split; [discriminate|congruence].
      * rewrite set_other by auto. apply F.
    + intros z e. cbn [has_data]. destruct (Nat.eqb_spec x z) as [->|Ng].
      * rewrite set_same. discriminate.
      * rewrite set_other by auto. apply G.
  - (* Dimensionality *)
    cbn in W, Q. destruct (dsets s x) as [d|] eqn:Hx; [|exfalso; apply F in W; congruence].
    apply (G x d Hx) in Q. assert (I : In (impl d) (open (library s))) by (apply (B (inr x)); exists d; auto).
    destruct (temp_ok (impl d) _ A I) as [T1 T2]. eexists. split; [left; reflexivity|]. apply inv_lib; auto; intros; reflexivity.
  - (* Extent *)
    cbn in W, Q. destruct Q as [<- Q]. destruct (dsets s x) as [d|] eqn:Hx; [|exfalso; apply F in W; congruence].
    apply (G x d Hx) in Q. assert (I : In (impl d) (open (library s))) by (apply (B (inr x)); exists d; auto).
    destruct (extent_ok dim (impl d) _ A I) as [l1 [X [T1 T2]]]. rewrite X. eexists. split; [left; reflexivity|]. apply inv_lib; auto; intros; reflexivity.
  - destruct Q.
  - (* Read *)
    cbn in W, Q. destruct Q as [-> Q]. destruct (dsets s x) as [d|] eqn:Hx; [|exfalso; apply F in W; congruence].
    apply (G x d Hx) in Q. replace (impl d =? 0) with false by (symmetry; apply Z.eqb_neq; exact Q).
    assert (I : In (impl d) (open (library s))) by (apply (B (inr x)); exists d; auto).
    destruct (temp_ok (impl d) _ A I) as [T1 T2]. destruct (Nat.eqb_spec dim rank) as [->|Nr]; cbn [negb].
    + destruct (extent_ok rank (impl d) _ T1) as [l1 [X [U1 U2]]]; [apply T2; exact I|]. rewrite X. eexists. split; [left; reflexivity|]. cbn [traits_type].
      rewrite use_ok by (apply U2, T2; exact I).
      apply inv_lib; auto; try (intros; reflexivity). intros j. rewrite U2. apply T2.
    + eexists. split; [right; reflexivity|]. apply inv_lib; auto; intros; reflexivity.
  - (* Write *)
    cbn in W, Q. destruct Q as [-> [-> Q]]. destruct (dsets s x) as [d|] eqn:Hx; [|exfalso; apply F in W; congruence].
    assert (Z0 : impl d = 0). { destruct (Z.eq_dec (impl d) 0) as [X|X]; [exact X|]. apply (G x d Hx) in X. congruence. }
    rewrite Z0. cbn [Z.eqb negb traits_type].
    pose proof (new_ok (library s) A) as N. destruct (h5_new (library s)) as [sp l2]. destruct N as [N1 [N2 [N3 N4]]].
    pose proof (new_ok l2 N1) as M. destruct (h5_new l2) as [i l3]. destruct M as [M1 [M2 [M3 M4]]].
    destruct (close_in sp l3 M1) as [C1 C2]; [apply M4; right; apply N4; left; reflexivity|].
    assert (K : forall j, In j (open (h5_close sp l3)) <-> j = i \/ In j (open (library s))).
    { intros j. rewrite C2, M4, N4. split; [tauto|]. intros [->|J].
      - split; [|tauto]. intros ->. apply M2. apply N4. left. reflexivity.
      - split; [|tauto]. intros ->. contradiction. }
    assert (Ni : ~ In i (open (library s))) by (intros X; apply M2; apply N4; right; exact X).
    rewrite use_ok by (apply K; left; reflexivity).
    eexists. split; [left; reflexivity|].
    assert (T : forall h j, holds (State (h5_close sp l3) (files s) (set (dsets s) x (Some (Dset i (file_ d))))) h j <-> (h = inr x /\ j = i) \/ holds s h j).
    { intros [g|z] j; cbn [holds files dsets].
      - split; [auto|]. intros [[X _]|X]; [discriminate|exact X].
      - destruct (Nat.eq_dec z x) as [->|Ng].
        + rewrite set_same. split.
          * intros [e [X [Y Y0]]]. injection X as <-. left. cbn in Y. auto.
          * intros [[_ ->]|[e [X [Y Y0]]]]; [|exfalso; congruence]. eexists. split; [reflexivity|]. cbn. auto.
        + rewrite set_other by exact Ng. split; [auto|]. intros [[X _]|X]; [injection X as X; contradiction|exact X]. }
    constructor; cbn [library files dsets].
    + exact C1.
    + intros h j X. apply T in X. apply K. destruct X as [[_ ->]|X]; [left; reflexivity|right; apply (B h); exact X].
    + intros h h' j X Y. apply T in X, Y. destruct X as [[-> ->]|X], Y as [[-> Yj]|Y]; auto.
      * exfalso. apply Ni. apply (B h'). exact Y.
      * exfalso. apply Ni. rewrite <- Yj. apply (B h). exact X.
      * apply (C h h' j); assumption.
    + intros j J. apply K in J. destruct J as [->|J].
      * exists (inr x). apply T. left. auto.
      * apply D in J. destruct J as [h Hh]. exists h. apply T. right. exact Hh.
    + exact E.
    + intros z. cbn [dsets_alive]. destruct (Nat.eq_dec z x) as [->|Ng].
      * rewrite set_same. rewrite F. split; intros _; congruence.
      * rewrite set_other by exact Ng. apply F.
    + intros z e. cbn [has_data]. destruct (Nat.eqb_spec x z) as [->|Ng].
      * rewrite set_same. intros X. injection X as <-. cbn. tauto.
      * rewrite set_other by auto. apply G.
Qed.

Lemma start_inv : inv start [].
Proof.
  constructor; cbn.
  - split; [intros i []|]. split; [apply Z.le_refl|]. split; [constructor|reflexivity].
  - intros [f|x] i; cbn; [discriminate|]. intros [d [X _]]. discriminate.
  - intros [f|x] h' i; cbn; [discriminate|]. intros [d [X _]]. discriminate.
  - intros i [].
  - intros f. split; [discriminate|]. intros X. exfalso. apply X. reflexivity.
  - intros f. split; [discriminate|]. intros X. exfalso. apply X. reflexivity.
  - discriminate.
Qed.

Lemma run_app s p q : run s (p ++ q) = match run s p with Ok s' => run s' q | r => r end.
Proof.
  revert s. induction p as [|o p IH]; intros s; cbn [app run]; [reflexivity|].
  destruct (step s o); [apply IH|apply IH|reflexivity].
Qed.

Lemma run_not_threw s p : forall s', run s p <> Threw s'.
Proof. revert s. induction p as [|o p IH]; intros s s'; cbn [run]; [discriminate|]. destruct (step s o); [apply IH|apply IH|discriminate]. Qed.

Lemma run_inv : forall p, well_scoped p -> careful p -> exists s, run start (rev p) = Ok s /\ inv s p.
Proof.
  induction p as [|o p IH]; intros W Q; [exists start; split; [reflexivity|apply start_inv]|].
  pose proof W as [W1 _]. pose proof Q as [Q1 _]. destruct (IH W1 Q1) as [s [E I]].
  destruct (step_inv s p o I W Q) as [s' [X I']]. exists s'. split; [|exact I'].
  cbn [rev]. rewrite run_app, E. cbn [run]. destruct X as [-> | ->]; reflexivity.
Qed.

Lemma all_closed p : well_scoped p -> careful p ->
  exists s, run start (rev p) = Ok s /\ errors (library s) = 0%nat /\
  ((forall f, files_alive p f = false) -> (forall x, dsets_alive p x = false) -> open (library s) = []) /\
  (forall x, dsets_alive p x = true -> has_data p x = true -> exists d, dsets s x = Some d /\ In (impl d) (open (library s))) /\
  (forall f, files_alive p f = true -> exists i, files s f = Some i /\ In i (open (library s))).
Proof.
  intros W Q. destruct (run_inv p W Q) as [s [E I]]. exists s. split; [exact E|]. destruct I as [A B C D F G H].
  split; [apply A|]. split; [|split].
  - intros Nf Nd. destruct (open (library s)) as [|i r] eqn:Eo; [reflexivity|]. exfalso.
    destruct (D i ltac:(left; reflexivity)) as [[f|x] Hh].
    + assert (X : files s f <> None) by (cbn in Hh; congruence). apply F in X. rewrite Nf in X. discriminate.
    + destruct Hh as [d [Hd _]]. assert (X : dsets s x <> None) by congruence. apply G in X. rewrite Nd in X. discriminate.
  - intros x Hx Hd. apply G in Hx. destruct (dsets s x) as [d|] eqn:Ed; [|congruence]. exists d. split; [reflexivity|].
    apply (B (inr x)). exists d. split; [exact Ed|]. split; [reflexivity|]. apply (H x d Ed). exact Hd.
  - intros f Hf. apply F in Hf. destruct (files s f) as [i|] eqn:Ef; [|congruence]. exists i. split; [reflexivity|]. apply (B (inl f)). exact Ef.
Qed.

(** Every write of a complex view leaves a type open. *)
Lemma close_length i l : lib_ok l -> In i (open l) -> S (length (open (h5_close i l))) = length (open l).
Proof.
  intros [_ [_ [C _]]] I. unfold h5_close. replace (existsb (Z.eqb i) (open l)) with true by (symmetry; apply is_open_in; exact I).
  cbn [open]. revert I C. induction (open l) as [|a r IH]; intros I C; [destruct I|]. inversion C as [|? ? N M]; subst. cbn [remove].
  destruct (Z.eq_dec i a) as [->|Na].
  - rewrite notin_remove by exact N. reflexivity.
  - destruct I as [->|I]; [congruence|]. cbn [length]. rewrite (IH I M). reflexivity.
Qed.

Lemma write_leaks s f0 : lib_ok (library s) -> files s 0%nat = Some f0 -> exists s',
  run s [CreateDataset 0 0; Write 0 true true; Destroy 0] = Ok s' /\ files s' = files s /\ lib_ok (library s') /\
  length (open (library s')) = S (length (open (library s))) /\ (forall j, In j (open (library s)) -> In j (open (library s'))).
Proof.
  intros A Hf. cbn [run step]. rewrite Hf. cbn [library files dsets]. rewrite set_same. cbn [impl Z.eqb negb traits_type file_].
  assert (Lt : length (open (snd (h5_new (library s)))) = S (length (open (library s)))) by reflexivity.
  pose proof (new_ok _ A) as N. destruct (h5_new (library s)) as [t l1]. cbn [snd] in *. destruct N as [N1 [N2 [N3 N4]]].
  assert (L2 : length (open (snd (h5_new l1))) = S (length (open l1))) by reflexivity.
  pose proof (new_ok _ N1) as M. destruct (h5_new l1) as [sp l2]. destruct M as [M1 [M2 [M3 M4]]]. cbn [snd] in *.
  assert (L3 : length (open (snd (h5_new l2))) = S (length (open l2))) by reflexivity.
  pose proof (new_ok _ M1) as P. destruct (h5_new l2) as [i l3]. destruct P as [P1 [P2 [P3 P4]]]. cbn [snd] in *.
  assert (Is : In sp (open l3)) by (apply P4; right; apply M4; left; reflexivity).
  destruct (close_in sp l3 P1 Is) as [C1 C2]. pose proof (close_length sp l3 P1 Is) as L4.
  assert (Ii : In i (open (h5_close sp l3))).
  { apply C2. split; [|apply P4; left; reflexivity]. intros ->. apply P2. apply M4. left. reflexivity. }
  rewrite use_ok by exact Ii. cbn [library files dsets]. rewrite set_same. cbn [impl]. replace (i =? 0) with false by (symmetry; apply Z.eqb_neq; exact P3).
  destruct (close_in i _ C1 Ii) as [D1 D2]. pose proof (close_length i _ C1 Ii) as L5.
  eexists. split; [reflexivity|]. cbn [library files]. split; [reflexivity|]. split; [exact D1|]. split; [lia|].
  intros j J. apply D2. split; [|apply C2; split; [|apply P4; right; apply M4; right; apply N4; right; exact J]].
  - intros ->. apply P2. apply M4. right. apply N4. right. exact J.
  - intros ->. apply M2. apply N4. right. exact J.
Qed.

Lemma run_ok_app s p q s' : run s p = Ok s' -> run s (p ++ q) = run s' q.
Proof. intros H. rewrite run_app, H. reflexivity. Qed.

Lemma writes_leak f0 : forall n s, lib_ok (library s) -> files s 0%nat = Some f0 -> exists s',
  run s (concat (repeat [CreateDataset 0 0; Write 0 true true; Destroy 0] n)) = Ok s' /\ files s' = files s /\ lib_ok (library s') /\
  length (open (library s')) = (n + length (open (library s)))%nat /\ (forall j, In j (open (library s)) -> In j (open (library s'))).
Proof.
  induction n as [|n IH]; intros s A Hf; [exists s; split; [reflexivity|]; split; [reflexivity|]; split; [exact A|]; split; [reflexivity|auto]|].
  change (concat (repeat [CreateDataset 0 0; Write 0 true true; Destroy 0] (S n))) with
    ([CreateDataset 0 0; Write 0 true true; Destroy 0] ++ concat (repeat [CreateDataset 0 0; Write 0 true true; Destroy 0] n)).
  destruct (write_leaks s f0 A Hf) as [s1 [E1 [F1 [A1 [L1 K1]]]]]. rewrite (run_ok_app _ _ _ _ E1).
  destruct (IH s1 A1) as [s2 [E2 [F2 [A2 [L2 K2]]]]]; [rewrite F1; exact Hf|]. exists s2. rewrite E2. split; [reflexivity|].
  split; [congruence|]. split; [exact A2|]. split; [lia|auto].
Qed.

Lemma program_leaks n : exists s,
  run start (OpenFile 0 true :: concat (repeat [CreateDataset 0 0; Write 0 true true; Destroy 0] n) ++ [CloseFile 0]) = Ok s /\
  length (open (library s)) = n.
Proof.
  cbn [run]. change (step start (OpenFile 0 true)) with (Ok (State (Lib 2 [1] 0) (set (fun _ => None) 0%nat (Some 1)) (fun _ => None))).
  cbv beta iota. set (s0 := State _ _ _).
  destruct (writes_leak 1 n s0) as [s1 [E1 [F1 [A1 [L1 K1]]]]]; [|reflexivity|].
  - subst s0. cbn [library]. split; [cbn; intros i [<-|[]]; lia|]. split; [cbn; lia|]. split; [repeat constructor; intros []|reflexivity].
  - rewrite (run_ok_app _ _ _ _ E1). cbn [run step]. rewrite F1. cbn [s0 files]. rewrite set_same. eexists. split; [reflexivity|].
    cbn [library]. assert (I : In 1 (open (library s1))) by (apply K1; left; reflexivity).
    pose proof (close_length 1 _ A1 I). cbn [s0 library open length] in L1. lia.
Qed.

(** Extents of a dataset with more dimensions. *)
Lemma extent_overruns s x d D rank : dsets s x = Some d -> In (impl d) (open (library s)) -> lib_ok (library s) -> (D < rank)%nat ->
  step s (Extent D x rank) = Undefined.
Proof.
  intros Hx I A H. cbn [step]. rewrite Hx. unfold query_extent, h5_get. rewrite (proj2 (is_open_in _ _) I).
  pose proof (new_ok _ A) as N. destruct (h5_new (library s)) as [i l1]. destruct N as [_ [_ [_ N3]]].
  rewrite (proj2 (is_open_in i l1)) by (apply N3; left; reflexivity).
  replace (D <? rank)%nat with true by (symmetry; apply Nat.ltb_lt; exact H). reflexivity.
Qed.

Lemma history_overruns p x D rank : well_scoped p -> careful p -> dsets_alive p x = true -> has_data p x = true -> (D < rank)%nat ->
  run start (rev (Extent D x rank :: p)) = Undefined.
Proof.
  intros W Q Hx Hd H. destruct (run_inv p W Q) as [s [E I]]. cbn [rev]. rewrite run_app, E. cbn [run].
  destruct I as [A B _ _ _ G K]. apply G in Hx. destruct (dsets s x) as [d|] eqn:Ed; [|congruence].
  rewrite (extent_overruns s x d D rank Ed); auto. apply (B (inr x)). exists d. split; [exact Ed|]. split; [reflexivity|]. apply (K x d Ed). exact Hd.
Qed.
