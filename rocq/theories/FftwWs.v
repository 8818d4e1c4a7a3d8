(** Lemmas about the FFTW backend: the workspace that copies between blocks
    and buffers around a transform. *)
From Coq Require Import ZArith List Bool Arith Lia.
From Verif Require Import Base Layout Dft DftProofs Fftw FftwProofs FftwLayout.
Import ListNotations.
Local Open Scope nat_scope.

Section Ws.
  Context (R : CRing).
  Add Ring Rr : (r_th R).
  Add Ring Cc : (r_th (Cr R)).
  Notation st := (st R). Notation cpx := (Cr R).
  Implicit Types (m : st) (b : blk) (w : access) (p q : ptr).

  Definition elt_holds m b (x : list nat -> cpx) := holds R m (ixs (b_size b)) (b_ptr b) (ats (b_stride b)) x.
  Definition ac_holds m b w (x : list nat -> cpx) := holds R m (ixs (b_size b)) (ac_ptr w) (ats (ac_stride w)) x.
  Definition ac_room m b w := room R m (ixs (b_size b)) (ac_ptr w) (ats (ac_stride w)).
  Definition ac_cells b w : cell -> Prop := touches (ixs (b_size b)) (ac_ptr w) (ats (ac_stride w)).
  Definition whole q := array_of_complex q \/ real_ptr q.

  Lemma whole_user q : whole q -> user q.
  Proof. intros [H|H]; [apply user_arr, H|apply user_real, H]. Qed.
  Lemma whole_apart q i j : whole q -> i <> j -> apart q i q j.
  Proof. intros W N c I J. destruct q; destruct W as [W|W]; try contradiction W; cbn in *; destruct I as [I|[]]; destruct J as [J|[]]; subst c; injection J as J; lia. Qed.

  Lemma good_cells b w buf N f : good b w buf N f -> forall c, ac_cells b w c -> elements b c \/ (ac_copy w <> None /\ storage buf N c).
  Proof.
    intros [(_ & P & S & _)|(a & Ea & P & X & _)] c (i & I & H).
    - left. rewrite P, S in H. exists i. auto.
    - right. split; [congruence|]. rewrite P in H. exists (ats (ac_stride w) i). split; [apply X, I|exact H].
  Qed.
  Lemma good_dist b w buf N f : good b w buf N f -> whole buf -> dist (ixs (b_size b)) (b_ptr b) (ats (b_stride b)) ->
    dist (ixs (b_size b)) (ac_ptr w) (ats (ac_stride w)).
  Proof.
    intros [(_ & P & S & _)|(a & Ea & P & _ & J)] W D; [rewrite P, S; exact D|]. rewrite P. intros i j I I' N'. apply (whole_apart _ _ _ W).
    intros X. exact (N' (J i j I I' X)).
  Qed.
  Lemma good_room b w buf N f m : good b w buf N f -> room R m (ixs (b_size b)) (b_ptr b) (ats (b_stride b)) ->
    room R m (fun i => 0 <= i < N)%Z buf (fun i => i) -> ac_room m b w.
  Proof.
    intros [(_ & P & S & _)|(a & Ea & P & X & _)] H1 H2 i I; unfold ac_room; rewrite P; [rewrite S; apply H1, I|]. apply (H2 (ats (ac_stride w) i)), X, I.
  Qed.

  (** Block to memory. *)
  Lemma copy_in_ok b w buf N f x m : good b w buf N f -> user (b_ptr b) -> whole buf ->
    separate (elements b) (storage buf N) -> elt_holds m b x -> room R m (fun i => 0 <= i < N)%Z buf (fun i => i) ->
    (forall i, ixs (b_size b) i -> as_stored R buf (x i) = x i) ->
    exists m', copy_in R b w m = Some m' /\ ac_holds m' b w x /\ changed R m m' (fun c => ac_copy w <> None /\ storage buf N c).
  Proof.
    intros G U W Sp H Rm Hx. unfold copy_in, ac_holds. destruct G as [(Ea & P & S & _)|(a & Ea & P & X & J)]; rewrite Ea, P.
    - exists m. split; [reflexivity|]. split; [rewrite S; exact H|]. apply changed_refl.
    - destruct (copy_ok R (b_size b) (fun i m' => v <- get R m' (b_ptr b) (ats (b_stride b) i) ;; o <- index a (zs i) ;; put R m' buf o v)
                 (b_ptr b) (ats (b_stride b)) x buf (ats (ac_stride w)) m U (whole_user _ W)) as (m' & E & Hh & C).
      + intros i m' I. destruct (get R m' (b_ptr b) (ats (b_stride b) i)) as [v|]; [|reflexivity]. cbn [bind].
        rewrite (proj1 (X i I)). reflexivity.
      + intros i j I I' N'. apply (whole_apart _ _ _ W). intros Y. exact (N' (J i j I I' Y)).
      + intros i j I I' c C1 C2. apply (Sp c); [exists i; auto|]. exists (ats (ac_stride w) j). split; [apply X, I'|exact C1].
      + exact H.
      + intros i I. apply (Rm (ats (ac_stride w) i)), X, I.
      + exists m'. split; [exact E|]. split.
        * intros i I. rewrite (Hh i I), (Hx i I). reflexivity.
        * revert C. apply changed_weak. intros c (i & I & C). split; [discriminate|]. exists (ats (ac_stride w) i). split; [apply X, I|exact C].
  Qed.
  (** Memory to block. *)
  Lemma copy_out_ok b w buf N f y m : good b w buf N f -> user (b_ptr b) -> whole buf ->
    separate (elements b) (storage buf N) -> dist (ixs (b_size b)) (b_ptr b) (ats (b_stride b)) ->
    ac_holds m b w y -> room R m (ixs (b_size b)) (b_ptr b) (ats (b_stride b)) ->
    (forall i, ixs (b_size b) i -> as_stored R (b_ptr b) (y i) = y i) ->
    exists m', copy_out R b w m = Some m' /\ elt_holds m' b y /\ changed R m m' (elements b).
  Proof.
    intros G U W Sp D H Rm Hy. unfold copy_out. destruct G as [(Ea & P & S & _)|(a & Ea & P & X & J)]; rewrite Ea.
    - exists m. split; [reflexivity|]. split; [|apply changed_refl]. unfold ac_holds in H. rewrite P, S in H. exact H.
    - rewrite P. unfold ac_holds in H. rewrite P in H.
      destruct (copy_ok R (b_size b) (fun i m' => o <- index a (zs i) ;; v <- get R m' buf o ;; put R m' (b_ptr b) (ats (b_stride b) i) v)
                 buf (ats (ac_stride w)) y (b_ptr b) (ats (b_stride b)) m (whole_user _ W) U) as (m' & E & Hh & C).
      + intros i m' I. rewrite (proj1 (X i I)). reflexivity.
      + exact D.
      + intros i j I I' c C1 C2. apply (Sp c); [exists j; auto|]. exists (ats (ac_stride w) i). split; [apply X, I|exact C2].
      + exact H.
      + exact Rm.
      + exists m'. split; [exact E|]. split; [|exact C]. intros i I. rewrite (Hh i I), (Hy i I). reflexivity.
  Qed.
  (** Scaling. *)
  Lemma scale_blk_ok ne1 sc b y m : user (b_ptr b) -> (ne1 = false -> sc = 1%cr) -> dist (ixs (b_size b)) (b_ptr b) (ats (b_stride b)) ->
    elt_holds m b y -> room R m (ixs (b_size b)) (b_ptr b) (ats (b_stride b)) ->
    (forall i, ixs (b_size b) i -> as_stored R (b_ptr b) (y i * ofR R sc)%cr = (y i * ofR R sc)%cr) ->
    exists m', scale_blk R ne1 sc b m = Some m' /\ elt_holds m' b (fun i => y i * ofR R sc)%cr /\ changed R m m' (elements b).
  Proof.
    intros U Hs D H Rm Hy. unfold scale_blk. destruct ne1.
    - destruct (scale_ok R (b_size b) (fun i m' => v <- get R m' (b_ptr b) (ats (b_stride b) i) ;; put R m' (b_ptr b) (ats (b_stride b) i) (v * ofR R sc)%cr)
                  (b_ptr b) (ats (b_stride b)) y (fun v => v * ofR R sc)%cr m U) as (m' & E & Hh & C); [reflexivity|exact D|exact H|exact Rm|].
      exists m'. split; [exact E|]. split; [|exact C]. intros i I. rewrite (Hh i I). f_equal. exact (Hy i I).
    - exists m. split; [reflexivity|]. split; [|apply changed_refl]. intros i I. rewrite (H i I), Hs by reflexivity. f_equal.
      change (ofR R 1%cr) with (1%cr : Cr R). ring.
  Qed.

  (** The whole sequence. *)
  Lemma sequence_ok (mid : st -> option st) bi wi ib Ni force bo wo ob No ne1 sc x y m :
    good bi wi ib Ni force -> good bo wo ob No false ->
    user (b_ptr bi) -> user (b_ptr bo) -> whole ib -> whole ob ->
    (force = true -> ac_copy wi <> None) ->
    (forall m1, ac_holds m1 bi wi x -> ac_room m1 bo wo -> (force = true -> ac_room m1 bi wi) ->
       (forall c, ac_cells bi wi c -> ac_cells bo wo c -> False) ->
       exists m2, mid m1 = Some m2 /\ ac_holds m2 bo wo y /\
         changed R m1 m2 (fun c => ac_cells bo wo c \/ (force = true /\ ac_cells bi wi c))) ->
    elt_holds m bi x -> room R m (ixs (b_size bo)) (b_ptr bo) (ats (b_stride bo)) ->
    dist (ixs (b_size bo)) (b_ptr bo) (ats (b_stride bo)) ->
    room R m (fun i => 0 <= i < Ni)%Z ib (fun i => i) -> room R m (fun i => 0 <= i < No)%Z ob (fun i => i) ->
    separate (elements bi) (elements bo) -> separate (elements bi) (storage ib Ni) -> separate (elements bi) (storage ob No) ->
    separate (elements bo) (storage ib Ni) -> separate (elements bo) (storage ob No) -> separate (storage ib Ni) (storage ob No) ->
    (ne1 = false -> sc = 1%cr) ->
    (forall i, ixs (b_size bi) i -> as_stored R ib (x i) = x i) ->
    (forall i, ixs (b_size bo) i -> as_stored R (b_ptr bo) (y i) = y i) ->
    (forall i, ixs (b_size bo) i -> as_stored R (b_ptr bo) (y i * ofR R sc)%cr = (y i * ofR R sc)%cr) ->
    exists m', (m1 <- copy_in R bi wi m ;; m2 <- mid m1 ;; m3 <- copy_out R bo wo m2 ;; scale_blk R ne1 sc bo m3) = Some m' /\
      elt_holds m' bo (fun i => y i * ofR R sc)%cr /\
      changed R m m' (fun c => elements bo c \/ storage ib Ni c \/ storage ob No c).
  Proof.
    intros Gi Go Ui Uo Wi Wo Fc Mid H Ro D Rib Rob S1 S2 S3 S4 S5 S6 Hs Hx Hy Hz.
    destruct (copy_in_ok bi wi ib Ni force x m Gi Ui Wi S2 H Rib Hx) as (m1 & E1 & H1 & C1). rewrite E1. cbn [bind].
    assert (Ro1 : ac_room m1 bo wo).
    { intros i I. apply (proj2 C1). exact (good_room bo wo ob No false m Go Ro Rob i I). }
    destruct (Mid m1 H1 Ro1) as (m2 & E2 & H2 & C2).
    { intros F i I. apply (proj2 C1). destruct Gi as [(X & _)|(a & Ea & P & X & _)]; [contradiction (Fc F X)|].
      rewrite P. apply (Rib (ats (ac_stride wi) i)), X, I. }
    { intros c A B. apply (good_cells _ _ _ _ _ Gi) in A. apply (good_cells _ _ _ _ _ Go) in B.
      destruct A as [A|(_ & A)]; destruct B as [B|(_ & B)].
      - exact (S1 c A B). - exact (S3 c A B). - exact (S4 c B A). - exact (S6 c A B). }
    rewrite E2. cbn [bind].
    assert (Ro2 : room R m2 (ixs (b_size bo)) (b_ptr bo) (ats (b_stride bo))) by (intros i I; apply (proj2 C2), (proj2 C1), Ro, I).
    destruct (copy_out_ok bo wo ob No false y m2 Go Uo Wo S5 D H2 Ro2 Hy) as (m3 & E3 & H3 & C3). rewrite E3. cbn [bind].
    assert (Ro3 : room R m3 (ixs (b_size bo)) (b_ptr bo) (ats (b_stride bo))) by (intros i I; apply (proj2 C3), Ro2, I).
    destruct (scale_blk_ok ne1 sc bo y m3 Uo Hs D H3 Ro3 Hz) as (m4 & E4 & H4 & C4).
    exists m4. split; [exact E4|]. split; [exact H4|].
    apply (changed_trans R m m1 m4); [revert C1; apply changed_weak; tauto|].
    apply (changed_trans R m1 m2 m4).
    { revert C2. apply changed_weak. intros c [X|(F & X)].
      - apply (good_cells _ _ _ _ _ Go) in X. tauto.
      - destruct Gi as [(_ & _ & _ & _ & Z0)|(a & Ea & P & Y & _)]; [congruence|]. destruct X as (i & I & X).
        right. left. rewrite P in X. exists (ats (ac_stride wi) i). split; [apply Y, I|exact X]. }
    apply (changed_trans R m2 m3 m4); [revert C3|revert C4]; apply changed_weak; tauto.
  Qed.
End Ws.
