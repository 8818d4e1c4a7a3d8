(** Lemmas about delayed operations. *)
From Coq Require Import ZArith List Bool Arith Lia.
From Verif Require Import Base Lazy.
Import ListNotations.

Section LazyProofs.
Context {I T : Type}.
Notation expr := (expr I T).
Notation store := (@store I T).
Notation world := (world T).

Lemma bind_some : forall {A B} (x : option A) (f : A -> option B) b,
  bind x f = Some b -> exists a, x = Some a /\ f a = Some b.
Proof. intros A B [a|] f b H; [exists a; auto|discriminate]. Qed.

Lemma values_ext : forall {B} (f g : I -> option B) l,
  (forall i, In i l -> f i = g i) -> values f l = values g l.
Proof.
  induction l as [|i l IH]; cbn; intros H; [reflexivity|].
  rewrite H by auto. destruct (g i); cbn; [|reflexivity].
  rewrite IH by auto. reflexivity.
Qed.

Lemma values_map : forall {B} (f : I -> option B) l vs,
  values f l = Some vs -> map f l = map Some vs.
Proof.
  induction l as [|i l IH]; cbn; intros vs H.
  - injection H as <-. reflexivity.
  - apply bind_some in H as (v & E & H). apply bind_some in H as (r & E2 & H).
    injection H as <-. cbn. rewrite E, (IH _ E2). reflexivity.
Qed.

(** The caches that exist hold the right values for the memory [m]. *)
Fixpoint Good (m : Z -> option T) (s : store) (e : expr) : Prop :=
  match e with
  | Leaf _ | Scal _ => True
  | Un _ _ a => Good m s a
  | Bin _ _ a _ b => Good m s a /\ Good m s b
  | Ter _ _ a _ b _ c => Good m s a /\ Good m s b /\ Good m s c
  | View _ _ a => Good m s a
  | Op _ dom F _ a k =>
      Good m s a /\
      (s k = None \/ exists vs, values (meaning m a) dom = Some vs /\ s k = Some (F vs))
  end.

(** The outermost delayed nodes have caches. *)
Fixpoint Top (s : store) (e : expr) : Prop :=
  match e with
  | Leaf _ | Scal _ => True
  | Un _ _ a => Top s a
  | Bin _ _ a _ b => Top s a /\ Top s b
  | Ter _ _ a _ b _ c => Top s a /\ Top s b /\ Top s c
  | View _ _ a => Top s a
  | Op _ _ _ _ _ k => s k <> None
  end.

Definition Ext (s s' : store) : Prop := forall k, s k <> None -> s' k = s k.
Definition Frame (s s' : store) (ks : list nat) : Prop :=
  forall k, ~ In k ks -> s' k = s k.

Lemma Ext_refl : forall s, Ext s s.
Proof. intros s k _. reflexivity. Qed.
Lemma Ext_trans : forall a b c, Ext a b -> Ext b c -> Ext a c.
Proof.
  intros a b c H G k E. rewrite G; [apply H; exact E|rewrite H by exact E; exact E].
Qed.
Lemma Frame_refl : forall s ks, Frame s s ks.
Proof. intros s ks k _. reflexivity. Qed.
Lemma Frame_trans : forall a b c ks, Frame a b ks -> Frame b c ks -> Frame a c ks.
Proof. intros a b c ks H G k E. rewrite G, H by exact E. reflexivity. Qed.
Lemma Frame_incl : forall a b ks ks', incl ks ks' -> Frame a b ks -> Frame a b ks'.
Proof. intros a b ks ks' L H k E. apply H. intro X. apply E, L, X. Qed.

Lemma Good_eq : forall m e s s',
  (forall k, In k (nodes e) -> s' k = s k) -> Good m s e -> Good m s' e.
Proof.
  intros m.
  induction e as [a|c|f d a IHa|f d a IHa d2 b IHb|f d a IHa d2 b IHb d3 c IHc
                 |g d a IHa|o dom F d a IHa k];
    intros s s' H G; cbn in *; auto.
  - apply (IHa s s'); auto.
  - destruct G. split; [apply (IHa s)|apply (IHb s)]; auto;
      intros; apply H, in_or_app; auto.
  - destruct G as (? & ? & ?).
    split; [|split]; [apply (IHa s)|apply (IHb s)|apply (IHc s)]; auto;
      intros; apply H; repeat rewrite in_app_iff; auto.
  - apply (IHa s s'); auto.
  - destruct G as [Ga Gk]. split; [apply (IHa s); auto|].
    rewrite (H k) by auto. exact Gk.
Qed.

Lemma Top_ext : forall e s s', Ext s s' -> Top s e -> Top s' e.
Proof.
  induction e as [a|c|f d a IHa|f d a IHa d2 b IHb|f d a IHa d2 b IHb d3 c IHc
                 |g d a IHa|o dom F d a IHa k];
    intros s s' H G; cbn in *; auto.
  - apply (IHa s s'); auto.
  - destruct G. split; [apply (IHa s)|apply (IHb s)]; auto.
  - destruct G as (? & ? & ?).
    split; [|split]; [apply (IHa s)|apply (IHb s)|apply (IHc s)]; auto.
  - apply (IHa s s'); auto.
  - rewrite H by exact G. exact G.
Qed.

Lemma Good_new : forall m e s, (forall k, In k (nodes e) -> s k = None) -> Good m s e.
Proof.
  intros m.
  induction e as [a|c|f d a IHa|f d a IHa d2 b IHb|f d a IHa d2 b IHb d3 c IHc
                 |g d a IHa|o dom F d a IHa k];
    intros s H; cbn in *; auto.
  - split; [apply IHa|apply IHb]; intros; apply H, in_or_app; auto.
  - split; [|split]; [apply IHa|apply IHb|apply IHc]; intros; apply H;
      repeat rewrite in_app_iff; auto.
Qed.

(** What reading in the memory [mem w] does. *)
Definition Reads (w : world) (e : expr) (rd : I -> store -> option (T * store)) : Prop :=
  forall i s v, Good (mem w) s e -> meaning (mem w) e i = Some v ->
  exists s', rd i s = Some (v, s') /\ Good (mem w) s' e /\ Ext s s' /\
             Frame s s' (nodes e) /\ Top s' e.

Lemma read_all_ok : forall w e rd l s vs,
  Reads w e rd -> Good (mem w) s e -> values (meaning (mem w) e) l = Some vs ->
  exists s', read_all rd l s = Some (vs, s') /\ Good (mem w) s' e /\ Ext s s' /\
             Frame s s' (nodes e).
Proof.
  intros w e rd. induction l as [|i l IH]; cbn; intros s vs R G E.
  - injection E as <-. exists s.
    repeat split; auto using Ext_refl, Frame_refl.
  - apply bind_some in E as (v & E1 & E). apply bind_some in E as (r & E2 & E).
    injection E as <-.
    destruct (R i s v G E1) as (s1 & H1 & G1 & X1 & F1 & _).
    destruct (IH s1 r R G1 E2) as (s2 & H2 & G2 & X2 & F2).
    rewrite H1. cbn. rewrite H2. cbn. exists s2.
    repeat split; auto; [eapply Ext_trans|eapply Frame_trans]; eauto.
Qed.

Lemma app_disjoint : forall {A} (a b : list A) x, NoDup (a ++ b) -> In x a -> ~ In x b.
Proof.
  induction a as [|y a IH]; cbn; intros b x N H1 H2; [contradiction|].
  inversion N; subst. destruct H1 as [<- |H1].
  - apply H3, in_or_app. auto.
  - exact (IH b x H4 H1 H2).
Qed.
Lemma NoDup_app_l : forall {A} (a b : list A), NoDup (a ++ b) -> NoDup a.
Proof.
  induction a as [|y a IH]; cbn; intros b N; [constructor|].
  inversion N; subst. constructor; [|eauto].
  intro X. apply H1, in_or_app. auto.
Qed.
Lemma NoDup_app_r : forall {A} (a b : list A), NoDup (a ++ b) -> NoDup b.
Proof.
  induction a as [|y a IH]; cbn; intros b N; [exact N|].
  inversion N; subst. eauto.
Qed.

Lemma set_same : forall (s : store) k c, set_cache s k c k = Some c.
Proof. intros. unfold set_cache. rewrite Nat.eqb_refl. reflexivity. Qed.
Lemma set_other : forall (s : store) k c x, x <> k -> set_cache s k c x = s x.
Proof.
  intros s k c x H. unfold set_cache. apply Nat.eqb_neq in H. rewrite H. reflexivity.
Qed.

(** Filling in the cache of a node after its argument was read. *)
Lemma fill : forall m s e o dom F d a k vs s1,
  e = Op o dom F d a k ->
  NoDup (k :: nodes a) ->
  s k = None ->
  values (meaning m a) dom = Some vs ->
  Good m s1 a -> Ext s s1 -> Frame s s1 (nodes a) ->
  Good m (set_cache s1 k (F vs)) e /\ Ext s (set_cache s1 k (F vs)) /\
  Frame s (set_cache s1 k (F vs)) (nodes e) /\ Top (set_cache s1 k (F vs)) e.
Proof.
  intros m s e o dom F d a k vs s1 -> N K V G X Fr.
  inversion N as [|? ? Nk Na]; subst.
  split; [|split; [|split]].
  - cbn. split.
    + apply (Good_eq m a s1); [|exact G].
      intros x Hx. apply set_other. intros ->. exact (Nk Hx).
    + right. exists vs. rewrite set_same. auto.
  - intros x Hx. rewrite set_other; [apply X; exact Hx|].
    intros ->. apply Hx, K.
  - intros x Hx. cbn in Hx. rewrite set_other; [apply Fr|]; intuition.
  - cbn. rewrite set_same. discriminate.
Qed.

Lemma get_ok : forall w e, NoDup (nodes e) -> usable w e -> Reads w e (get w e).
Proof.
  intros w.
  induction e as [a|c|f d a IHa|f d a IHa d2 b IHb|f d a IHa d2 b IHb d3 c IHc
                 |g d a IHa|o dom F d a IHa k];
    intros N U i s v G E; cbn [meaning] in E; cbn [get].
  - rewrite E. cbn. exists s. repeat split; auto using Ext_refl, Frame_refl.
  - injection E as <-. exists s. repeat split; auto using Ext_refl, Frame_refl.
  - apply bind_some in E as (x & E1 & E). injection E as <-.
    destruct (IHa N U i s x G E1) as (s1 & H1 & G1 & X1 & F1 & T1).
    rewrite H1. cbn. exists s1. auto.
  - apply bind_some in E as (x & E1 & E). apply bind_some in E as (y & E2 & E).
    injection E as <-. cbn [nodes] in N. cbn [Good] in G. destruct G as [Ga Gb].
    destruct (IHa (NoDup_app_l _ _ N)
                  (fun o H => U o (in_or_app _ _ _ (or_introl H))) i s x Ga E1)
      as (s1 & H1 & G1 & X1 & F1 & T1).
    assert (Gb1 : Good (mem w) s1 b).
    { apply (Good_eq _ b s); [|exact Gb]. intros k Hk. apply F1.
      intro Hk'. exact (app_disjoint _ _ _ N Hk' Hk). }
    destruct (IHb (NoDup_app_r _ _ N)
                  (fun o H => U o (in_or_app _ _ _ (or_intror H))) i s1 y Gb1 E2)
      as (s2 & H2 & G2 & X2 & F2 & T2).
    rewrite H1. cbn. rewrite H2. cbn. exists s2.
    split; [reflexivity|split; [|split; [|split]]].
    + split; [|exact G2]. apply (Good_eq _ a s1); [|exact G1]. intros k Hk.
      apply F2. exact (app_disjoint _ _ _ N Hk).
    + eapply Ext_trans; eauto.
    + eapply Frame_trans; (eapply Frame_incl; [|eassumption]);
        intros k Hk; apply in_or_app; auto.
    + split; [|exact T2]. eapply Top_ext; eauto.
  - apply bind_some in E as (x & E1 & E). apply bind_some in E as (y & E2 & E).
    apply bind_some in E as (z & E3 & E).
    injection E as <-. cbn [nodes] in N. cbn [Good] in G. destruct G as (Ga & Gb & Gc).
    pose proof (NoDup_app_r _ _ N) as Nbc.
    assert (Ua : usable w a) by (intros o H; apply U; cbn; rewrite !in_app_iff; auto).
    assert (Ub : usable w b) by (intros o H; apply U; cbn; rewrite !in_app_iff; auto).
    assert (Uc : usable w c) by (intros o H; apply U; cbn; rewrite !in_app_iff; auto).
    destruct (IHa (NoDup_app_l _ _ N) Ua i s x Ga E1) as (s1 & H1 & G1 & X1 & F1 & T1).
    assert (Gb1 : Good (mem w) s1 b).
    { apply (Good_eq _ b s); [|exact Gb]. intros k Hk. apply F1.
      intro Hk'. apply (app_disjoint _ _ _ N Hk'), in_or_app. auto. }
    destruct (IHb (NoDup_app_l _ _ Nbc) Ub i s1 y Gb1 E2) as (s2 & H2 & G2 & X2 & F2 & T2).
    assert (Gc2 : Good (mem w) s2 c).
    { apply (Good_eq _ c s); [|exact Gc]. intros k Hk. rewrite F2, F1; [reflexivity| |].
      - intro Hk'. apply (app_disjoint _ _ _ N Hk'), in_or_app. auto.
      - intro Hk'. exact (app_disjoint _ _ _ Nbc Hk' Hk). }
    destruct (IHc (NoDup_app_r _ _ Nbc) Uc i s2 z Gc2 E3) as (s3 & H3 & G3 & X3 & F3 & T3).
    rewrite H1. cbn. rewrite H2. cbn. rewrite H3. cbn. exists s3.
    split; [reflexivity|split; [|split; [|split]]].
    + split; [|split; [|exact G3]].
      * apply (Good_eq _ a s1); [|exact G1]. intros k Hk.
        assert (D := app_disjoint _ _ _ N Hk). rewrite in_app_iff in D.
        rewrite F3, F2; auto.
      * apply (Good_eq _ b s2); [|exact G2]. intros k Hk.
        apply F3. exact (app_disjoint _ _ _ Nbc Hk).
    + eapply Ext_trans; [eapply Ext_trans|]; eauto.
    + eapply Frame_trans; [eapply Frame_trans|];
        (eapply Frame_incl; [|eassumption]);
        intros k Hk; cbn; rewrite !in_app_iff; auto.
    + split; [|split; [|exact T3]].
      * exact (Top_ext _ _ _ (Ext_trans _ _ _ X2 X3) T1).
      * exact (Top_ext _ _ _ X3 T2).
  - destruct (IHa N U (g i) s v G E) as (s1 & H1 & R). exists s1. auto.
  - apply bind_some in E as (vs & E1 & E). injection E as <-.
    cbn [Good] in G. destruct G as [Ga [K|(vs' & V' & K)]]; rewrite K.
    + cbn [nodes] in N. inversion N as [|? ? Nk Na]; subst.
      assert (Ua : usable w a) by (intros o' H; apply U; cbn; auto).
      rewrite (U o (or_introl eq_refl)).
      destruct (read_all_ok w a (get w a) dom s vs (IHa Na Ua) Ga E1)
        as (s1 & H1 & G1 & X1 & F1).
      rewrite H1. cbn [bind fst snd].
      exists (set_cache s1 k (F vs)). split; [reflexivity|].
      exact (fill (mem w) s _ o dom F d a k vs s1 eq_refl N K E1 G1 X1 F1).
    + rewrite E1 in V'. injection V' as <-.
      exists s. split; [reflexivity|].
      split; [|split; [|split]]; [|apply Ext_refl|apply Frame_refl|].
      * cbn. split; [exact Ga|right; exists vs; auto].
      * cbn. rewrite K. discriminate.
Qed.

Definition Evals (w : world) (e : expr) (ev : store -> option store) : Prop :=
  forall s, Good (mem w) s e ->
  exists s', ev s = Some s' /\ Good (mem w) s' e /\ Ext s s' /\ Frame s s' (nodes e).

Lemma eval_sub : forall w e (d : bool), Evals w e (eval w e) ->
  Evals w e (fun s => if d then eval w e s else Some s).
Proof.
  intros w e [|] H s G; [exact (H s G)|].
  exists s. repeat split; auto using Ext_refl, Frame_refl.
Qed.

Lemma eval_ok : forall w e, NoDup (nodes e) -> usable w e -> readable (mem w) e ->
  Evals w e (eval w e).
Proof.
  intros w.
  induction e as [a|c|f d a IHa|f d a IHa d2 b IHb|f d a IHa d2 b IHb d3 c IHc
                 |g d a IHa|o dom F d a IHa k];
    intros N U R s G; cbn [eval].
  - exists s. repeat split; auto using Ext_refl, Frame_refl.
  - exists s. repeat split; auto using Ext_refl, Frame_refl.
  - exact (eval_sub w a d (IHa N U R) s G).
  - cbn [nodes readable Good] in *. destruct R as [Ra Rb]. destruct G as [Ga Gb].
    assert (Ua : usable w a) by (intros o H; apply U; cbn; rewrite !in_app_iff; auto).
    assert (Ub : usable w b) by (intros o H; apply U; cbn; rewrite !in_app_iff; auto).
    destruct (eval_sub w a d (IHa (NoDup_app_l _ _ N) Ua Ra) s Ga)
      as (s1 & H1 & G1 & X1 & F1).
    assert (Gb1 : Good (mem w) s1 b).
    { apply (Good_eq _ b s); [|exact Gb]. intros k Hk. apply F1.
      intro Hk'. exact (app_disjoint _ _ _ N Hk' Hk). }
    destruct (eval_sub w b d2 (IHb (NoDup_app_r _ _ N) Ub Rb) s1 Gb1)
      as (s2 & H2 & G2 & X2 & F2).
    cbv beta in H1, H2. rewrite H1. cbn [bind]. rewrite H2. exists s2.
    split; [reflexivity|split; [|split]].
    + split; [|exact G2]. apply (Good_eq _ a s1); [|exact G1]. intros k Hk.
      apply F2. exact (app_disjoint _ _ _ N Hk).
    + eapply Ext_trans; eauto.
    + eapply Frame_trans; (eapply Frame_incl; [|eassumption]);
        intros k Hk; apply in_or_app; auto.
  - cbn [nodes readable Good] in *. destruct R as (Ra & Rb & Rc). destruct G as (Ga & Gb & Gc).
    pose proof (NoDup_app_r _ _ N) as Nbc.
    assert (Ua : usable w a) by (intros o H; apply U; cbn; rewrite !in_app_iff; auto).
    assert (Ub : usable w b) by (intros o H; apply U; cbn; rewrite !in_app_iff; auto).
    assert (Uc : usable w c) by (intros o H; apply U; cbn; rewrite !in_app_iff; auto).
    destruct (eval_sub w a d (IHa (NoDup_app_l _ _ N) Ua Ra) s Ga)
      as (s1 & H1 & G1 & X1 & F1).
    assert (Gb1 : Good (mem w) s1 b).
    { apply (Good_eq _ b s); [|exact Gb]. intros k Hk. apply F1.
      intro Hk'. apply (app_disjoint _ _ _ N Hk'), in_or_app. auto. }
    destruct (eval_sub w b d2 (IHb (NoDup_app_l _ _ Nbc) Ub Rb) s1 Gb1)
      as (s2 & H2 & G2 & X2 & F2).
    assert (Gc2 : Good (mem w) s2 c).
    { apply (Good_eq _ c s); [|exact Gc]. intros k Hk. rewrite F2, F1; [reflexivity| |].
      - intro Hk'. apply (app_disjoint _ _ _ N Hk'), in_or_app. auto.
      - intro Hk'. exact (app_disjoint _ _ _ Nbc Hk' Hk). }
    destruct (eval_sub w c d3 (IHc (NoDup_app_r _ _ Nbc) Uc Rc) s2 Gc2)
      as (s3 & H3 & G3 & X3 & F3).
    cbv beta in H1, H2, H3. rewrite H1. cbn [bind]. rewrite H2. cbn [bind]. rewrite H3.
    exists s3. split; [reflexivity|split; [|split]].
    + split; [|split; [|exact G3]].
      * apply (Good_eq _ a s1); [|exact G1]. intros k Hk.
        assert (D := app_disjoint _ _ _ N Hk). rewrite in_app_iff in D.
        rewrite F3, F2; auto.
      * apply (Good_eq _ b s2); [|exact G2]. intros k Hk.
        apply F3. exact (app_disjoint _ _ _ Nbc Hk).
    + eapply Ext_trans; [eapply Ext_trans|]; eauto.
    + eapply Frame_trans; [eapply Frame_trans|];
        (eapply Frame_incl; [|eassumption]);
        intros k Hk; cbn; rewrite !in_app_iff; auto.
  - exact (eval_sub w a d (IHa N U R) s G).
  - cbn [nodes readable Good] in *. destruct R as (Ra & Rv). destruct G as (Ga & Gk).
    inversion N as [|? ? Nk Na]; subst.
    assert (Ua : usable w a) by (intros o' H; apply U; cbn; auto).
    destruct (eval_sub w a d (IHa Na Ua Ra) s Ga) as (s1 & H1 & G1 & X1 & F1).
    cbv beta in H1. rewrite H1. cbn [bind].
    assert (K1 : s1 k = s k) by (apply F1; exact Nk).
    destruct Gk as [K|(vs & V & K)]; rewrite K1, K.
    + destruct (values (meaning (mem w) a) dom) as [vs|] eqn:V; [|contradiction].
      rewrite (U o (or_introl eq_refl)).
      destruct (read_all_ok w a (get w a) dom s1 vs (get_ok w a Na Ua) G1 V)
        as (s2 & H2 & G2 & X2 & F2).
      rewrite H2. cbn [bind fst snd]. exists (set_cache s2 k (F vs)).
      split; [reflexivity|].
      destruct (fill (mem w) s _ o dom F d a k vs s2 eq_refl N K V G2
                  (Ext_trans _ _ _ X1 X2) (Frame_trans _ _ _ _ F1 F2)) as (A & B & C & _).
      cbn [Good] in A. rewrite V in A. exact (conj A (conj B C)).
    + exists s1. split; [reflexivity|split; [|split]].
      * split; [exact G1|]. right. exists vs. rewrite K1, K. auto.
      * exact X1.
      * eapply Frame_incl; [|exact F1]. intros x Hx. cbn. auto.
Qed.

(** Once the outermost delayed nodes have caches, reading depends on the
    memory only through the direct operands. *)
Lemma get_cached : forall m w e i s v,
  Good m s e -> Top s e -> meaning m e i = Some v ->
  (forall a, In a (direct e i) -> mem w a = m a) ->
  get w e i s = Some (v, s).
Proof.
  intros m w.
  induction e as [a|c|f d a IHa|f d a IHa d2 b IHb|f d a IHa d2 b IHb d3 c IHc
                 |g d a IHa|o dom F d a IHa k];
    intros i s v G Tp E D; cbn [meaning get Good Top direct] in *.
  - rewrite D by (left; reflexivity). rewrite E. reflexivity.
  - injection E as <-. reflexivity.
  - apply bind_some in E as (x & E1 & E). injection E as <-.
    rewrite (IHa i s x); auto.
  - apply bind_some in E as (x & E1 & E). apply bind_some in E as (y & E2 & E).
    injection E as <-. destruct G, Tp.
    rewrite (IHa i s x); auto; [|intros; apply D, in_or_app; auto]. cbn.
    rewrite (IHb i s y); auto. intros; apply D, in_or_app; auto.
  - apply bind_some in E as (x & E1 & E). apply bind_some in E as (y & E2 & E).
    apply bind_some in E as (z & E3 & E).
    injection E as <-. destruct G as (? & ? & ?), Tp as (? & ? & ?).
    rewrite (IHa i s x); auto; [|intros; apply D; rewrite !in_app_iff; auto]. cbn.
    rewrite (IHb i s y); auto; [|intros; apply D; rewrite !in_app_iff; auto]. cbn.
    rewrite (IHc i s z); auto. intros; apply D; rewrite !in_app_iff; auto.
  - apply IHa; auto.
  - apply bind_some in E as (vs & E1 & E). injection E as <-.
    destruct G as [_ [K|(vs' & V & K)]]; [contradiction|].
    rewrite E1 in V. injection V as <-. rewrite K. reflexivity.
Qed.

Lemma put_all_ok : forall m lhs e order w s,
  NoDup order ->
  (forall i j, In i order -> In j order -> lhs i = lhs j -> i = j) ->
  Good m s e -> Top s e ->
  (forall i, In i order -> meaning m e i <> None) ->
  aligned lhs order e ->
  (forall i a, In i order -> In a (direct e i) -> mem w a = m a) ->
  exists w', put_all lhs e order w s = Some (w', s) /\
    (forall i, In i order -> mem w' (lhs i) = meaning m e i) /\
    (forall a, (forall i, In i order -> lhs i <> a) -> mem w' a = mem w a).
Proof.
  intros m lhs e. induction order as [|i r IH]; intros w s N J G Tp V A D; cbn [put_all].
  - exists w. repeat split; auto. intros i [].
  - inversion N as [|? ? Ni Nr]; subst.
    destruct (meaning m e i) as [v|] eqn:E; [|exfalso; exact (V i (or_introl eq_refl) E)].
    rewrite (get_cached m w e i s v G Tp E) by (intros a Ha; apply (D i); cbn; auto).
    cbn [bind fst snd].
    destruct (IH (put w (lhs i) v) s Nr) as (w' & H & HV & HF); auto.
    + intros; apply J; cbn; auto.
    + intros; apply V; cbn; auto.
    + intros x y Hx Hy Hd. apply A; cbn; auto.
    + intros j a Hj Ha. cbn [mem put].
      destruct (Z.eqb_spec a (lhs i)) as [->|_].
      * exfalso. apply Ni.
        assert (j = i) as <-; [|exact Hj].
        apply A; cbn; auto.
      * apply (D j); cbn; auto.
    + exists w'. split; [exact H|split].
      * intros j [<- |Hj]; [|apply HV; exact Hj].
        rewrite HF.
        -- cbn [mem put]. rewrite Z.eqb_refl. symmetry. exact E.
        -- intros j Hj X. apply Ni. rewrite <- (J j i); cbn; auto.
      * intros a Ha. rewrite HF by (intros; apply Ha; cbn; auto).
        cbn [mem put]. destruct (Z.eqb_spec a (lhs i)) as [->|_]; [|reflexivity].
        exfalso. exact (Ha i (or_introl eq_refl) eq_refl).
Qed.

Theorem assign_ok : forall (lhs : I -> Z) order (e : expr) w s,
  NoDup order ->
  (forall i j, In i order -> In j order -> lhs i = lhs j -> i = j) ->
  new_expr e s -> usable w e -> readable (mem w) e ->
  (forall i, In i order -> meaning (mem w) e i <> None) ->
  aligned lhs order e ->
  exists w' s', assign lhs order e w s = Some (w', s') /\
    (forall i, In i order -> mem w' (lhs i) = meaning (mem w) e i) /\
    (forall a, (forall i, In i order -> lhs i <> a) -> mem w' a = mem w a).
Proof.
  intros lhs order e w s N J [Nn Ns] U R V A. unfold assign.
  destruct (eval_ok w e Nn U R s (Good_new _ _ _ Ns)) as (s1 & H1 & G1 & X1 & F1).
  rewrite H1. cbn [bind].
  destruct order as [|i r].
  - exists w, s1. cbn. repeat split; auto. intros i [].
  - cbn [put_all]. inversion N as [|? ? Ni Nr]; subst.
    destruct (meaning (mem w) e i) as [v|] eqn:E;
      [|exfalso; exact (V i (or_introl eq_refl) E)].
    destruct (get_ok w e Nn U i s1 v G1 E) as (s2 & H2 & G2 & X2 & F2 & T2).
    rewrite H2. cbn [bind fst snd].
    destruct (put_all_ok (mem w) lhs e r (put w (lhs i) v) s2 Nr) as (w' & H & HV & HF); auto.
    + intros; apply J; cbn; auto.
    + intros; apply V; cbn; auto.
    + intros x y Hx Hy Hd. apply A; cbn; auto.
    + intros j a Hj Ha. cbn [mem put].
      destruct (Z.eqb_spec a (lhs i)) as [->|_]; [|reflexivity].
      exfalso. apply Ni. assert (j = i) as <-; [|exact Hj].
      apply A; cbn; auto.
    + exists w', s2. split; [exact H|split].
      * intros j [<- |Hj]; [|apply HV; exact Hj].
        rewrite HF.
        -- cbn [mem put]. rewrite Z.eqb_refl. symmetry. exact E.
        -- intros j Hj X. apply Ni. rewrite <- (J j i); cbn; auto.
      * intros a Ha. rewrite HF by (intros; apply Ha; cbn; auto).
        cbn [mem put]. destruct (Z.eqb_spec a (lhs i)) as [->|_]; [|reflexivity].
        exfalso. exact (Ha i (or_introl eq_refl) eq_refl).
Qed.

(** Reading a delayed operation that has been evaluated. *)
Lemma run_cached : forall (l : list (event I T)) (w : world) o dom F d (a : expr) k s c,
  s k = Some c -> no_local l ->
  run w (Op o dom F d a k) s l = Some (map c (reads l)).
Proof.
  induction l as [|[i|w'|n|n] l IH]; intros w o dom F d a k s c K P; cbn in P.
  - reflexivity.
  - cbn [run get]. rewrite K. cbn [bind fst snd].
    rewrite (IH w o dom F d a k s c K P). reflexivity.
  - cbn [run reads]. apply IH; assumption.
  - cbn [run reads copy_expr]. apply IH; [|exact P].
    unfold copy_store. destruct (Nat.ltb_spec (k + n) n) as [L|L]; [lia|].
    replace (k + n - n) with k by lia. exact K.
  - contradiction.
Qed.

Theorem run_first : forall (w : world) o dom F d (a : expr) k s i (l : list (event I T)),
  let e := Op o dom F d a k in
  new_expr e s -> usable w e -> values (meaning (mem w) a) dom <> None ->
  no_local l ->
  exists vs, run w e s (Read i :: l) = Some vs /\
    map Some vs = map (meaning (mem w) e) (i :: reads l).
Proof.
  intros w o dom F d a k s i l e [Nn Ns] U V P.
  destruct (values (meaning (mem w) a) dom) as [xs|] eqn:E; [|contradiction].
  assert (M : forall j, meaning (mem w) e j = Some (F xs j))
    by (intro j; unfold e; cbn [meaning]; rewrite E; reflexivity).
  destruct (get_ok w e Nn U i s (F xs i) (Good_new _ _ _ Ns) (M i))
    as (s1 & H1 & G1 & X1 & F1 & T1).
  cbn [run]. rewrite H1. cbn [bind fst snd].
  unfold e in G1, T1. cbn [Good Top] in G1, T1.
  destruct G1 as [_ [K|(xs' & E' & K)]]; [contradiction|].
  rewrite E in E'. injection E' as <-.
  unfold e at 1. rewrite (run_cached l w o dom F d a k s1 (F xs) K P).
  cbn [bind]. eexists. split; [reflexivity|].
  cbn [map]. rewrite M. f_equal. rewrite map_map. apply map_ext.
  intro j. symmetry. apply M.
Qed.

(** As long as nothing changes every read gives the meaning. *)
Theorem run_same : forall (w : world) (e : expr) s l vs,
  new_expr e s -> usable w e -> values (meaning (mem w) e) l = Some vs ->
  run w e s (map Read l) = Some vs.
Proof.
  intros w e s l vs [Nn Ns] U V.
  assert (G : Good (mem w) s e) by (apply Good_new; exact Ns). clear Ns.
  revert s vs V G. induction l as [|i l IH]; cbn; intros s vs V G.
  - exact V.
  - apply bind_some in V as (v & E1 & V). apply bind_some in V as (r & E2 & V).
    injection V as <-.
    destruct (get_ok w e Nn U i s v G E1) as (s1 & H1 & G1 & _).
    rewrite H1. cbn. rewrite (IH s1 r E2 G1). reflexivity.
Qed.

(** A copy behaves as the original would. *)
Definition Shift (n : nat) (s s2 : store) : Prop := forall k, s2 (k + n) = s k.

Definition Same (n : nat) (x : option (T * store)) (y : option (T * store)) : Prop :=
  match x, y with
  | Some (v, s), Some (v2, s2) => v = v2 /\ Shift n s s2
  | None, None => True
  | _, _ => False
  end.

Lemma Same_bind : forall n x y (f g : T * store -> option (T * store)),
  Same n x y ->
  (forall v s s2, Shift n s s2 -> Same n (f (v, s)) (g (v, s2))) ->
  Same n (bind x f) (bind y g).
Proof.
  intros n [[v s]|] [[v2 s2]|] f g H K; cbn in H; try contradiction; cbn; [|exact H].
  destruct H as [<- H]. apply K, H.
Qed.

Lemma get_copy : forall n w e i s s2, Shift n s s2 ->
  Same n (get w e i s) (get w (copy_expr n e) i s2).
Proof.
  intros n w.
  induction e as [a|c|f d a IHa|f d a IHa d2 b IHb|f d a IHa d2 b IHb d3 c IHc
                 |g d a IHa|o dom F d a IHa k];
    intros i s s2 H; cbn [get copy_expr].
  - destruct (mem w (a i)); cbn; auto.
  - cbn. auto.
  - apply Same_bind; [apply IHa; exact H|]. intros. cbn. auto.
  - apply Same_bind; [apply IHa; exact H|]. intros v t t2 Ht. cbn [fst snd].
    apply Same_bind; [apply IHb; exact Ht|]. intros. cbn. auto.
  - apply Same_bind; [apply IHa; exact H|]. intros v t t2 Ht. cbn [fst snd].
    apply Same_bind; [apply IHb; exact Ht|]. intros v' t' t2' Ht'. cbn [fst snd].
    apply Same_bind; [apply IHc; exact Ht'|]. intros. cbn. auto.
  - apply IHa, H.
  - rewrite (H k). destruct (s k) as [c|] eqn:K; [cbn; auto|].
    destruct (live w o); [|exact Logic.I].
    assert (RA : forall l t t2, Shift n t t2 ->
      match read_all (get w a) l t, read_all (get w (copy_expr n a)) l t2 with
      | Some (x, u), Some (y, u2) => x = y /\ Shift n u u2
      | None, None => True
      | _, _ => False
      end).
    { induction l as [|j l IHl]; intros t t2 Ht; cbn [read_all]; [cbn; auto|].
      generalize (IHa j t t2 Ht).
      destruct (get w a j t) as [[x u]|], (get w (copy_expr n a) j t2) as [[y u2]|];
        cbn [Same]; intro X; try contradiction; cbn [bind]; [|exact Logic.I].
      destruct X as [<- Hu]. cbn [fst snd]. generalize (IHl u u2 Hu).
      destruct (read_all (get w a) l u) as [[xs z]|],
               (read_all (get w (copy_expr n a)) l u2) as [[ys z2]|];
        intro X; try contradiction; cbn [bind]; [|exact Logic.I].
      destruct X as [<- Hz]. cbn. auto. }
    generalize (RA dom s s2 H).
    destruct (read_all (get w a) dom s) as [[x u]|],
             (read_all (get w (copy_expr n a)) dom s2) as [[y u2]|];
      intro X; try contradiction; cbn [bind]; [|exact Logic.I].
    destruct X as [<- Hu]. cbn [fst snd Same]. split; [reflexivity|].
    intro x0. unfold set_cache.
    destruct (Nat.eqb_spec x0 k) as [->|Nk].
    + rewrite Nat.eqb_refl. reflexivity.
    + destruct (Nat.eqb_spec (x0 + n) (k + n)); [lia|]. apply Hu.
Qed.

Theorem run_copy : forall n (l : list (event I T)) (w : world) (e : expr) s,
  only_reads l ->
  run w e s (Copy n :: l) = run w e s l.
Proof.
  intros n l w e s P. cbn [run].
  assert (H : Shift n s (copy_store n s)).
  { intro k. unfold copy_store. destruct (Nat.ltb_spec (k + n) n); [lia|].
    f_equal. lia. }
  revert H. generalize (copy_store n s) as s2. revert w s P.
  induction l as [|[i|w'|m|m] l IH]; intros w s P s2 H; cbn in P; try contradiction.
  - reflexivity.
  - cbn [run]. generalize (get_copy n w e i s s2 H).
    destruct (get w e i s) as [[v t]|], (get w (copy_expr n e) i s2) as [[v2 t2]|];
      cbn [Same]; intro X; try contradiction; cbn [bind]; [|reflexivity].
    destruct X as [<- Ht]. cbn [fst snd]. rewrite (IH w t P t2 Ht). reflexivity.
  - cbn [run]. apply IH; assumption.
Qed.

End LazyProofs.
