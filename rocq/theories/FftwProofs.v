(** Lemmas about the FFTW backend: memory, copies, and a library that meets
    FFTW's documentation. *)
From Coq Require Import ZArith List Bool Arith Lia FinFun.
From Verif Require Import Base Layout Dft DftProofs Fftw.
Import ListNotations.
Local Open Scope nat_scope.

(** ** Index tuples *)
Lemma all_ix_in ns : forall i, In i (all_ix ns) <-> ixs ns i.
Proof.
  unfold ixs. induction ns as [|n ns IH]; intros i; cbn [all_ix].
  - split; [intros [<-|[]]; constructor|]. intros H. inversion H. left. reflexivity.
  - rewrite in_flat_map. split.
    + intros (k & K & H). apply in_seq in K. apply in_map_iff in H as (i' & <- & H). apply IH in H. constructor; [lia|exact H].
    + intros H. inversion H as [|k n' i' ns' K H' E1 E2]. subst. exists k. split; [apply in_seq; lia|]. apply in_map, IH, H'.
Qed.
Lemma NoDup_app_intro {A} (l l' : list A) : NoDup l -> NoDup l' -> (forall x, In x l -> ~ In x l') -> NoDup (l ++ l').
Proof.
  induction l as [|a l IH]; intros N N' D; [exact N'|]. cbn. inversion N as [|? ? Na Nl]. subst. constructor.
  - rewrite in_app_iff. intros [H|H]; [exact (Na H)|exact (D a (or_introl eq_refl) H)].
  - apply IH; [exact Nl|exact N'|]. intros x H. apply D. right. exact H.
Qed.
Lemma all_ix_nodup ns : NoDup (all_ix ns).
Proof.
  induction ns as [|n ns IH]; cbn [all_ix]; [constructor; [intros []|constructor]|].
  assert (H : forall l, NoDup l -> NoDup (flat_map (fun k => map (cons k) (all_ix ns)) l)).
  { induction l as [|k l IHl]; intros N; [constructor|]. cbn. inversion N as [|? ? Nk Nl]. subst. apply NoDup_app_intro.
    - apply FinFun.Injective_map_NoDup; [|exact IH]. intros a b E. congruence.
    - apply IHl, Nl.
    - intros x H1 H2. apply in_map_iff in H1 as (a & <- & _). apply in_flat_map in H2 as (k' & K & H2).
      apply in_map_iff in H2 as (b & E & _). injection E as -> _. exact (Nk K). }
  apply H, seq_NoDup.
Qed.
Lemma ordpairs {A} (P : A -> A -> Prop) (l : list A) : NoDup l -> (forall a b, In a l -> In b l -> a <> b -> P a b) -> ForallOrdPairs P l.
Proof.
  induction l as [|a l IH]; intros N H; constructor; inversion N as [|? ? Na Nl]; subst.
  - apply Forall_forall. intros b B. apply H; [left; reflexivity|right; exact B|]. intros ->. exact (Na B).
  - apply IH; [exact Nl|]. intros x y X Y. apply H; right; assumption.
Qed.

Section Mem.
  Context (R : CRing).
  Add Ring Rr : (r_th R).
  Add Ring Cc : (r_th (Cr R)).
  Notation st := (st R). Notation cpx := (Cr R).
  Implicit Types (m : st) (p q : ptr).

  Definition user q : Prop := match q with Tmp _ => False | _ => True end.
  Lemma user_real q : real_ptr q -> user q. Proof. destruct q; cbn; tauto. Qed.
  Lemma user_cpx q : cpx_ptr q -> user q. Proof. destruct q; cbn; tauto. Qed.
  Lemma user_arr q : array_of_complex q -> user q. Proof. destruct q; cbn; tauto. Qed.

  Lemma changed_weak m m' (P Q : cell -> Prop) : (forall c, P c -> Q c) -> changed R m m' P -> changed R m m' Q.
  Proof. intros H (A & B). split; [|exact B]. intros c N. apply A. intros X. exact (N (H c X)). Qed.
  Lemma changed_trans m m' m'' (P : cell -> Prop) : changed R m m' P -> changed R m' m'' P -> changed R m m'' P.
  Proof.
    intros (A & B) (A' & B'). split; [|intros; apply B', B; assumption].
    intros c N. rewrite A' by exact N. apply A, N.
  Qed.
  Lemma changed_refl m P : changed R m m P.
  Proof. split; auto. Qed.
  Lemma changed_then m m' m'' (P Q S : cell -> Prop) : changed R m m' P -> changed R m' m'' Q -> (forall c, P c \/ Q c -> S c) -> changed R m m'' S.
  Proof.
    intros H H' X. apply (changed_trans m m' m'').
    - apply (changed_weak m m' P); [|exact H]. intros c C. apply X. left. exact C.
    - apply (changed_weak m' m'' Q); [|exact H']. intros c C. apply X. right. exact C.
  Qed.

  Lemma get_changed m m' (P : cell -> Prop) q i : user q -> changed R m m' P -> (forall c, In c (cells q i) -> ~ P c) -> get R m' q i = get R m q i.
  Proof.
    intros U (A & _) N. destruct q as [p|p|a b|p]; [| | |contradiction]; cbn [cells get] in *; unfold mload.
    - pose proof (A _ (N _ (or_introl eq_refl))) as H. cbn [rd] in H. injection H as ->. reflexivity.
    - pose proof (A _ (N _ (or_introl eq_refl))) as H. cbn [rd] in H. injection H as ->. reflexivity.
    - pose proof (A _ (N _ (or_introl eq_refl))) as H. pose proof (A _ (N _ (or_intror (or_introl eq_refl)))) as H'. cbn [rd] in H, H'.
      injection H as ->. injection H' as ->. reflexivity.
  Qed.
  Lemma put_changed m q i v : writable R m q i ->
    exists m', put R m q i v = Some m' /\ get R m' q i = Some (as_stored R q v) /\ changed R m m' (fun c => In c (cells q i)).
  Proof.
    intros W. apply writable_wr in W. destruct (put_ok R m q i v W) as (m' & E & G & F & L). exists m'. split; [exact E|]. split; [exact G|]. split.
    - intros c N. specialize (F c N). destruct c; cbn [peek rd] in *; [| |reflexivity]; injection F as ->; reflexivity.
    - intros p' j W'. apply writable_wr. apply writable_wr in W'. exact (wr_alive R m m' p' j L W').
  Qed.

  Lemma holds_changed {J} m m' (P : cell -> Prop) (dJ : J -> Prop) q a x : user q -> changed R m m' P ->
    (forall j, dJ j -> forall c, In c (cells q (a j)) -> ~ P c) -> holds R m dJ q a x -> holds R m' dJ q a x.
  Proof. intros U C N H j D. rewrite (get_changed m m' P q (a j) U C (N j D)). apply H, D. Qed.
  Lemma room_changed {J} m m' (P : cell -> Prop) (dJ : J -> Prop) q a : changed R m m' P -> room R m dJ q a -> room R m' dJ q a.
  Proof. intros (_ & W) H j D. apply W, H, D. Qed.

  Lemma each_put {J} (f : J -> st -> option st) q (b : J -> Z) (y : J -> cpx) (I : list J -> st -> Prop) :
    user q ->
    (forall j L m, I (j :: L) m -> f j m = put R m q (b j) (y j)) ->
    (forall j L m m', I (j :: L) m -> (forall k, In k L -> apart q (b j) q (b k)) -> changed R m m' (fun c => In c (cells q (b j))) -> I L m') ->
    forall L m, ForallOrdPairs (fun j k => apart q (b j) q (b k)) L -> (forall j, In j L -> writable R m q (b j)) -> I L m ->
    exists m', each f L m = Some m' /\ (forall j, In j L -> get R m' q (b j) = Some (as_stored R q (y j))) /\
      changed R m m' (fun c => exists j, In j L /\ In c (cells q (b j))).
  Proof.
    intros U F S L. induction L as [|j L IH]; intros m P W HI; cbn [each].
    - exists m. split; [reflexivity|]. split; [intros j []|apply changed_refl].
    - rewrite (F j L m HI). inversion P as [|? ? P1 P2]. subst. rewrite Forall_forall in P1.
      destruct (put_changed m q (b j) (y j) (W j (or_introl eq_refl))) as (m1 & E1 & G1 & C1). rewrite E1. cbn [bind].
      destruct (IH m1 P2) as (m2 & E2 & G2 & C2).
      + intros k K. apply (proj2 C1), W. right. exact K.
      + apply (S j L m m1 HI P1 C1).
      + exists m2. split; [exact E2|]. split.
        * intros k [<-|K]; [|apply G2, K]. rewrite (get_changed m1 m2 _ q (b j) U C2); [exact G1|].
          intros c C (k & K & C'). exact (P1 k K c C C').
        * apply (changed_then m m1 m2 _ _ _ C1 C2). intros c [C|(k & K & C)]; [exists j|exists k]; (split; [|exact C]); [left; reflexivity|right; exact K].
  Qed.

  (** Filling an array, copying one to another, and scaling one. *)
  Lemma fill_ok ns q b y m : user q -> dist (ixs ns) q b -> room R m (ixs ns) q b ->
    exists m', each (fun i m' => put R m' q (b i) (y i)) (all_ix ns) m = Some m' /\
      holds R m' (ixs ns) q b (fun i => as_stored R q (y i)) /\ changed R m m' (touches (ixs ns) q b).
  Proof.
    intros U D W. destruct (each_put (fun i m' => put R m' q (b i) (y i)) q b y (fun _ _ => True) U) with (L := all_ix ns) (m := m) as (m' & E & G & C).
    - reflexivity.
    - trivial.
    - apply ordpairs; [apply all_ix_nodup|]. intros i j I J N. apply all_ix_in in I. apply all_ix_in in J. apply D; assumption.
    - intros i I. apply W, all_ix_in, I.
    - exact I.
    - exists m'. split; [exact E|]. split.
      + intros i I. apply G, all_ix_in, I.
      + revert C. apply changed_weak. intros c (j & J & C). exists j. split; [apply all_ix_in, J|exact C].
  Qed.
  Lemma copy_ok ns (f : list nat -> st -> option st) p a x q b m : user p -> user q ->
    (forall i m', ixs ns i -> f i m' = (v <- get R m' p (a i) ;; put R m' q (b i) v)) ->
    dist (ixs ns) q b -> disj (ixs ns) p a (ixs ns) q b -> holds R m (ixs ns) p a x -> room R m (ixs ns) q b ->
    exists m', each f (all_ix ns) m = Some m' /\
      holds R m' (ixs ns) q b (fun i => as_stored R q (x i)) /\ changed R m m' (touches (ixs ns) q b).
  Proof.
    intros Up Uq F D Dj H W.
    destruct (each_put f q b x (fun L m' => incl L (all_ix ns) /\ holds R m' (ixs ns) p a x) Uq) with (L := all_ix ns) (m := m) as (m' & E & G & C).
    - intros i L m' (I & Hm). assert (Ii : ixs ns i) by (apply all_ix_in, I; left; reflexivity). rewrite (F i m' Ii), (Hm i Ii). reflexivity.
    - intros i L m1 m2 (I & Hm) _ C. assert (Ii : ixs ns i) by (apply all_ix_in, I; left; reflexivity). split; [intros k K; apply I; right; exact K|].
      apply (holds_changed m1 m2 _ _ p a x Up C); [|exact Hm]. intros j Jj c Cc Ci. exact (Dj j i Jj Ii c Ci Cc).
    - apply ordpairs; [apply all_ix_nodup|]. intros i j I J N. apply all_ix_in in I. apply all_ix_in in J. apply D; assumption.
    - intros i I. apply W, all_ix_in, I.
    - split; [apply incl_refl|exact H].
    - exists m'. split; [exact E|]. split.
      + intros i I. apply G, all_ix_in, I.
      + revert C. apply changed_weak. intros c (j & J & C). exists j. split; [apply all_ix_in, J|exact C].
  Qed.
  Lemma scale_ok ns (f : list nat -> st -> option st) q b x (g : cpx -> cpx) m : user q ->
    (forall i m', f i m' = (v <- get R m' q (b i) ;; put R m' q (b i) (g v))) ->
    dist (ixs ns) q b -> holds R m (ixs ns) q b x -> room R m (ixs ns) q b ->
    exists m', each f (all_ix ns) m = Some m' /\
      holds R m' (ixs ns) q b (fun i => as_stored R q (g (x i))) /\ changed R m m' (touches (ixs ns) q b).
  Proof.
    intros Uq F D H W.
    destruct (each_put f q b (fun i => g (x i)) (fun L m' => forall k, In k L -> get R m' q (b k) = Some (x k)) Uq) with (L := all_ix ns) (m := m) as (m' & E & G & C).
    - intros i L m' Hm. rewrite F, (Hm i (or_introl eq_refl)). reflexivity.
    - intros i L m1 m2 Hm A C k K. rewrite (get_changed m1 m2 _ q (b k) Uq C); [apply Hm; right; exact K|].
      intros c Ck Ci. exact (A k K c Ci Ck).
    - apply ordpairs; [apply all_ix_nodup|]. intros i j I J N. apply all_ix_in in I. apply all_ix_in in J. apply D; assumption.
    - intros i I. apply W, all_ix_in, I.
    - intros k K. apply H, all_ix_in, K.
    - exists m'. split; [exact E|]. split.
      + intros i I. apply G, all_ix_in, I.
      + revert C. apply changed_weak. intros c (j & J & C). exists j. split; [apply all_ix_in, J|exact C].
  Qed.

  (** ** A library that meets the documentation *)
  Context (t : trig R).
  Lemma DFTs_ext e ns : forall x y w, (forall i, ixs ns i -> x i = y i) -> DFTs R t e ns x w = DFTs R t e ns y w \/ ~ length w = length ns.
  Proof.
    induction ns as [|n ns IH]; intros x y w H; destruct w as [|k w]; cbn [DFTs].
    - left. apply H. constructor.
    - left. apply H. constructor.
    - right. discriminate.
    - destruct (Nat.eq_dec (length w) (length ns)) as [E|E]; [left|right; cbn; congruence].
      apply (sum_ext (Cr R)). intros j J. f_equal. destruct (IH (fun i => x (j :: i)) (fun i => y (j :: i)) w) as [X|X]; [|exact X|contradiction].
      intros i I. apply H. constructor; [lia|exact I].
  Qed.
  Lemma DFTs_eq e ns x y w : length w = length ns -> (forall i, ixs ns i -> x i = y i) -> DFTs R t e ns x w = DFTs R t e ns y w.
  Proof. intros L H. destruct (DFTs_ext e ns x y w H) as [E|E]; [exact E|contradiction]. Qed.
  Lemma ixs_len ns i : ixs ns i -> length i = length ns.
  Proof. intros H. induction H as [|k n i ns K H IH]; cbn; congruence. Qed.
  Lemma half_len A ns : length (half_at A ns) = length ns.
  Proof. unfold half_at. rewrite map_length, seq_length. reflexivity. Qed.
  Lemma half_cons A n ns : half_at (S A) (n :: ns) = n :: half_at A ns.
  Proof. unfold half_at. cbn [length seq map]. f_equal. rewrite <- seq_shift, map_map. reflexivity. Qed.
  Lemma half_0 n ns : half_at 0 (n :: ns) = (n / 2 + 1) :: ns.
  Proof.
    unfold half_at. cbn [length seq map]. f_equal. rewrite <- seq_shift, map_map. cbn [Nat.eqb nth].
    induction ns as [|k ns IH]; [reflexivity|]. cbn [length seq map nth]. f_equal. rewrite <- seq_shift, map_map. exact IH.
  Qed.
  Lemma inside_iff : forall ns i, length i = length ns -> (forallb (fun '(k, n) => k <? n) (combine i ns) = true <-> ixs ns i).
  Proof.
    unfold ixs. induction ns as [|n ns IH]; intros i L; destruct i as [|k i]; try discriminate L; cbn [combine forallb].
    - split; [constructor|reflexivity].
    - rewrite Bool.andb_true_iff, Nat.ltb_lt, IH by (cbn in L; congruence). split.
      + intros (A & B). constructor; assumption.
      + intros H. inversion H. auto.
  Qed.
  (** If an index is outside the half, its opposite is inside. *)
  Lemma opposite_inside : forall A ns i, A < length ns -> ixs ns i -> ~ ixs (half_at A ns) i -> ixs (half_at A ns) (opposite ns i).
  Proof.
    intros A ns. revert A. induction ns as [|n ns IH]; intros A i L H N; [cbn in L; lia|].
    inversion H as [|k n' i' ns' K H' E1 E2]. subst. cbn [opposite].
    assert (O : ixs ns (opposite ns i')).
    { clear - H'. induction H' as [|k n l l' K H IH]; cbn [opposite]; constructor; [|exact IH]. apply Nat.mod_upper_bound. lia. }
    assert (Mo : (n - k) mod n < n) by (apply Nat.mod_upper_bound; lia).
    destruct A as [|A].
    - rewrite half_0 in *. constructor; [|exact O].
      assert (n / 2 + 1 <= k).
      { destruct (Nat.le_gt_cases (n / 2 + 1) k) as [X|X]; [exact X|]. exfalso. apply N. constructor; assumption. }
      pose proof (Nat.div_mod n 2). pose proof (Nat.mod_upper_bound n 2). rewrite Nat.mod_small by lia. lia.
    - rewrite half_cons in *. constructor; [exact Mo|]. apply IH; [cbn in L; lia|exact H'|].
      intros X. apply N. constructor; assumption.
  Qed.

  Lemma pl_out_len pl : length (pl_out pl) = length (pl_ns pl).
  Proof. unfold pl_out. destruct (pl_kind pl); rewrite ?half_len; reflexivity. Qed.
  Lemma pl_in_len pl : length (pl_in pl) = length (pl_ns pl).
  Proof. unfold pl_in. destruct (pl_kind pl); rewrite ?half_len; reflexivity. Qed.
  Lemma cconj2 (z : cpx) : cconj R (cconj R z) = z.
  Proof. destruct z as [a b]. unfold cconj. cbn [fst snd]. f_equal. ring. Qed.

  Lemma reference_documented ssz va : documented R t ssz va (reference R t).
  Proof.
    intros pl p q X m Pos Kp Kq Dj _ D He H _ W. unfold reference.
    assert (Uq : user q) by (destruct (pl_kind pl); [apply user_arr|apply user_arr|apply user_real]; exact Kq).
    assert (Xs : forall i, ixs (pl_ns pl) i -> spectrum R pl p m i = X i).
    { intros i I. unfold spectrum, pl_in, holds in *. destruct (pl_kind pl).
      - rewrite (H i I). reflexivity.
      - rewrite (H i I). reflexivity.
      - destruct (forallb _ _) eqn:E.
        + apply inside_iff in E; [|rewrite half_len; exact (ixs_len _ _ I)]. rewrite (H i E). reflexivity.
        + assert (N : ~ ixs (half_at (length (pl_dims pl) - 1) (pl_ns pl)) i).
          { intros Y. apply inside_iff in Y; [congruence|]. rewrite half_len. exact (ixs_len _ _ I). }
          destruct (pl_dims pl) as [|d ds] eqn:Ed.
          * exfalso. apply N. unfold pl_ns in *. rewrite Ed in *. exact I.
          * assert (Ll : length (d :: ds) - 1 < length (pl_ns pl)).
            { unfold pl_ns. rewrite Ed, map_length. cbn [length]. lia. }
            rewrite (H _ (opposite_inside _ _ _ Ll I N)), (He i I), cconj2. reflexivity. }
    destruct (fill_ok (pl_out pl) q (ats (pl_os pl)) (DFTs R t (match pl_kind pl with C2C => pl_sign pl | R2C => -1 | C2R => 1 end)%Z (pl_ns pl) (spectrum R pl p m)) m Uq D W) as (m' & E & G & C).
    exists m'. split; [exact E|]. split.
    - intros w Hw. rewrite (G w Hw). f_equal.
      assert (Lw : length w = length (pl_ns pl)) by (rewrite (ixs_len _ _ Hw); apply pl_out_len).
      rewrite (DFTs_eq _ _ _ X w Lw Xs). destruct (pl_kind pl); destruct q; try contradiction; reflexivity.
    - revert C. apply changed_weak. intros c Hc. left. exact Hc.
  Qed.
End Mem.
