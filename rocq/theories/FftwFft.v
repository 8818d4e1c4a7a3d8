(** Lemmas about the FFTW backend: one transform of one, two or three
    dimensions. *)
From Coq Require Import ZArith List Bool Arith Lia.
From Verif Require Import Base Layout LayoutProofs Dft DftProofs Fftw FftwProofs FftwLayout FftwWs FftwPlan.
Import ListNotations.
Local Open Scope nat_scope.

Lemma halve_half A ns : 1 <= length ns <= 3 -> A < length ns -> halve A ns = half_at A ns.
Proof.
  intros L H. destruct ns as [|a [|b [|c [|d ns]]]]; cbn [length] in *; try lia; destruct A as [|[|[|A]]]; try lia; reflexivity.
Qed.
Lemma leqb_refl l : leqb l l = true.
Proof. unfold leqb. destruct (list_eq_dec Nat.eq_dec l l); congruence. Qed.
Lemma leqb_neq a b : a <> b -> leqb a b = false.
Proof. unfold leqb. destruct (list_eq_dec Nat.eq_dec a b); congruence. Qed.

Section Fft.
  Context (R : CRing) (t : trig R).
  Add Ring Rr : (r_th R).
  Add Ring Cc : (r_th (Cr R)).
  Notation st := (st R). Notation cpx := (Cr R).
  Context (ssz AL va : Z) (Cf : config ssz AL va).
  Context (exec : plan -> ptr -> ptr -> st -> option st) (Doc : documented R t ssz va exec).

  Lemma buffer_va m p n : buffer R ssz m p n -> (address ssz p mod va = 0)%Z.
  Proof. destruct Cf as (_ & _ & V & _ & _ & E). intros (H & _). apply (mod_down _ 32 va); lia. Qed.

  Lemma open_fft fl o b buf force : length (b_stride b) = length (b_size b) -> ord (length (b_size b)) o ->
    length (b_size b) = 1 \/ f_unaligned fl = true ->
    exists w, rt_open ssz b (rtl AL fl o) force buf = Some w /\ good b w buf (prod (b_size b)) force /\
      (forall i, ixs (b_size b) i -> ats (ac_stride w) i = ats (rowmajor (perm o (b_size b))) (perm o i)) /\
      (f_unaligned fl = false -> address ssz buf mod va = 0 -> address ssz (ac_ptr w) mod va = 0)%Z.
  Proof.
    intros L O [H|H].
    - pose proof (list1 _ H) as (n & S). rewrite S in O, L. cbn [length] in O, L. inversion O. subst o.
      destruct (open_1 ssz AL (ssz_pos ssz AL va Cf) va b fl n force buf Cf S L) as (w & E & G & X & Y). exists w. split; [exact E|].
      rewrite S in *. split; [|split; [|exact Y]].
      + replace (prod [n]) with (Z.of_nat n) by (unfold prod, zs; cbn [map fold_right]; ring). exact G.
      + intros i I. rewrite (X i I). pose proof (ixs_len _ _ I) as Li. cbn in Li. lists. reflexivity.
    - destruct (open_dense ssz AL (ssz_pos ssz AL va Cf) b fl o force buf (AL_pos ssz AL va Cf) H O L) as (w & E & G & X).
      exists w. split; [exact E|]. split; [exact G|]. split; [exact X|]. rewrite H. discriminate.
  Qed.

  (** What a plan does, in the order of the block's dimensions. *)
  Definition result (k : kind) (inv : bool) (dims : list nat) (X : list nat -> cpx) (w : list nat) : cpx :=
    match k with
    | C2C => DFTs R t (if inv then 1 else -1) dims X w
    | R2C => DFTs R t (-1) dims X w
    | C2R => ofR R (fst (DFTs R t 1 dims X w))
    end.
  Definition in_ptr (k : kind) (p : ptr) := match k with R2C => real_ptr p | _ => array_of_complex p end.
  Definition out_ptr (k : kind) (p : ptr) := match k with C2R => real_ptr p | _ => array_of_complex p end.
  Definition in_blk (k : kind) (p : ptr) := match k with R2C => real_ptr p | _ => cpx_ptr p end.
  Definition out_blk (k : kind) (p : ptr) := match k with C2R => real_ptr p | _ => cpx_ptr p end.

  Lemma order_ord k D A : 1 <= D <= 3 -> ord D (the_order k D A).
  Proof. intros H. destruct k; [apply seq_ord, H|apply axis_ord, H|apply axis_ord, H]. Qed.
  Lemma planned_in k inv A dims pl fl same : 1 <= length dims <= 3 -> A < length dims -> planned k inv A dims pl fl same ->
    pl_in pl = perm (the_order k (length dims) A) (size_in k A dims).
  Proof.
    intros HD HA P. unfold pl_in. rewrite (pd_kind _ _ _ _ _ _ _ P), (pd_len _ _ _ _ _ _ _ P), (pd_ns _ _ _ _ _ _ _ P).
    destruct k; try reflexivity. cbn [size_in the_order]. symmetry. apply perm_half; auto.
  Qed.
  Lemma planned_out k inv A dims pl fl same : 1 <= length dims <= 3 -> A < length dims -> planned k inv A dims pl fl same ->
    pl_out pl = perm (the_order k (length dims) A) (size_out k A dims).
  Proof.
    intros HD HA P. unfold pl_out. rewrite (pd_kind _ _ _ _ _ _ _ P), (pd_len _ _ _ _ _ _ _ P), (pd_ns _ _ _ _ _ _ _ P).
    destruct k; try reflexivity. cbn [size_out the_order]. symmetry. apply perm_half; auto.
  Qed.
  Lemma size_in_len k A dims : length (size_in k A dims) = length dims.
  Proof. destruct k; cbn [size_in]; rewrite ?half_len; reflexivity. Qed.
  Lemma size_out_len k A dims : length (size_out k A dims) = length dims.
  Proof. destruct k; cbn [size_out]; rewrite ?half_len; reflexivity. Qed.

  Lemma exec_ok k inv A dims pl fl same p q is os X m :
    1 <= length dims <= 3 -> A < length dims -> planned k inv A dims pl fl same ->
    let o := the_order k (length dims) A in
    let ni := size_in k A dims in let no := size_out k A dims in
    in_ptr k p -> out_ptr k q ->
    (forall i, ixs ni i -> ats is i = ats (rowmajor (perm o ni)) (perm o i)) ->
    (forall i, ixs no i -> ats os i = ats (rowmajor (perm o no)) (perm o i)) ->
    (if same then p = q /\ k = C2C else separate (touches (ixs ni) p (ats is)) (touches (ixs no) q (ats os))) ->
    (f_unaligned fl = false -> address ssz p mod va = 0 /\ address ssz q mod va = 0)%Z ->
    dist (ixs no) q (ats os) ->
    (k = C2R -> hermitian R dims X) ->
    holds R m (ixs ni) p (ats is) X ->
    (k = C2R -> f_preserve fl = false -> room R m (ixs ni) p (ats is)) ->
    room R m (ixs no) q (ats os) ->
    exists m', exec pl p q m = Some m' /\ holds R m' (ixs no) q (ats os) (result k inv dims X) /\
      changed R m m' (fun c => touches (ixs no) q (ats os) c \/ (k = C2R /\ f_preserve fl = false /\ touches (ixs ni) p (ats is) c)).
  Proof.
    intros HD HA P o ni no Kp Kq Si So Sep Al D He H Rp Rq.
    pose proof (planned_in _ _ _ _ _ _ _ HD HA P) as Ei. pose proof (planned_out _ _ _ _ _ _ _ HD HA P) as Eo.
    destruct P as [P1 P2 P3 P4 P5 P6 P7 P8 P9]. fold o in P6, P7, P8, Ei, Eo. fold ni in P7, Ei. fold no in P8, Eo.
    pose proof (order_ord k (length dims) A HD) as O. fold o in O.
    assert (Li : length ni = length dims) by apply size_in_len. assert (Lo : length no = length dims) by apply size_out_len.
    assert (Bi : forall i, ixs (perm o ni) i -> ixs ni (perm o i) /\ ats (pl_is pl) i = ats is (perm o i)).
    { intros i I. pose proof (perm_ixs_inv _ o ni i O Li I) as I'. split; [exact I'|]. rewrite (Si _ I'), P7, (perm_perm _ o i O); [reflexivity|].
      rewrite (ixs_len _ _ I). apply perm_len, O. }
    assert (Bo : forall i, ixs (perm o no) i -> ixs no (perm o i) /\ ats (pl_os pl) i = ats os (perm o i)).
    { intros i I. pose proof (perm_ixs_inv _ o no i O Lo I) as I'. split; [exact I'|]. rewrite (So _ I'), P8, (perm_perm _ o i O); [reflexivity|].
      rewrite (ixs_len _ _ I). apply perm_len, O. }
    assert (Ti : forall c, touches (ixs (pl_in pl)) p (ats (pl_is pl)) c -> touches (ixs ni) p (ats is) c).
    { rewrite Ei. intros c (i & I & C). destruct (Bi i I) as (I' & E). rewrite E in C. exists (perm o i). auto. }
    assert (To : forall c, touches (ixs (pl_out pl)) q (ats (pl_os pl)) c -> touches (ixs no) q (ats os) c).
    { rewrite Eo. intros c (i & I & C). destruct (Bo i I) as (I' & E). rewrite E in C. exists (perm o i). auto. }
    destruct (Doc pl p q (fun i => X (perm o i)) m P9) as (m' & E & Hm & C).
    - rewrite P1. destruct k; exact Kp.
    - rewrite P1. destruct k; exact Kq.
    - rewrite P3. destruct same.
      + destruct Sep as (-> & K). split; [reflexivity|]. rewrite P7, P8. unfold ni, no. rewrite K. reflexivity.
      + intros i j I J c C1 C2. apply (Sep c); [apply Ti|apply To]; [exists i|exists j]; auto.
    - rewrite P4. exact Al.
    - rewrite Eo. intros i j I J N. destruct (Bo i I) as (I' & E1). destruct (Bo j J) as (J' & E2). rewrite E1, E2. apply D; auto.
      intros Z0. apply N. rewrite <- (perm_perm _ o i O), <- (perm_perm _ o j O), Z0; [reflexivity| |];
        [rewrite (ixs_len _ _ J)|rewrite (ixs_len _ _ I)]; apply perm_len, O.
    - rewrite P1. destruct k; try exact I. rewrite P6. apply (hermitian_perm R _ o dims X O eq_refl), He, eq_refl.
    - rewrite Ei. intros i I. destruct (Bi i I) as (I' & E1). rewrite E1. apply H, I'.
    - rewrite P1, P4, Ei. intros K F i I. destruct (Bi i I) as (I' & E1). rewrite E1. apply Rp; auto.
    - rewrite Eo. intros i I. destruct (Bo i I) as (I' & E1). rewrite E1. apply Rq, I'.
    - exists m'. split; [exact E|]. split.
      + intros i I. pose proof (perm_ixs _ o no i O Lo I) as I'. rewrite Eo in Hm. pose proof (Hm _ I') as G.
        destruct (Bo _ I') as (_ & E1). assert (Lx : length i = length dims) by (rewrite (ixs_len _ _ I); exact Lo).
        rewrite (perm_perm _ o i O Lx) in E1. rewrite E1 in G. rewrite G. f_equal.
        rewrite P1, P6. unfold result.
        assert (Y : forall e, DFTs R t e (perm o dims) (fun i0 => X (perm o i0)) (perm o i) = DFTs R t e dims X i) by (intros e; apply (DFTs_perm R t (length dims)); auto).
        rewrite !Y. destruct k; try reflexivity. rewrite (P2 eq_refl). destruct inv; reflexivity.
      + revert C. apply changed_weak. rewrite P1, P4. intros c [C|(K & F & C)]; [left; apply To, C|right]. auto.
  Qed.

  Lemma good_in k b w buf N f : good b w buf N f -> in_blk k (b_ptr b) -> in_ptr k buf -> in_ptr k (ac_ptr w).
  Proof.
    intros [(_ & P & _ & S & _)|(a & _ & P & _)] B I; rewrite P; [|exact I]. destruct k; unfold in_blk, in_ptr in *; destruct (b_ptr b); try contradiction; try discriminate S; exact Logic.I.
  Qed.
  Lemma good_out k b w buf N f : good b w buf N f -> out_blk k (b_ptr b) -> out_ptr k buf -> out_ptr k (ac_ptr w).
  Proof.
    intros [(_ & P & _ & S & _)|(a & _ & P & _)] B I; rewrite P; [|exact I]. destruct k; unfold out_blk, out_ptr in *; destruct (b_ptr b); try contradiction; try discriminate S; exact Logic.I.
  Qed.
  Lemma in_blk_user k p : in_blk k p -> user p.
  Proof. destruct k; [apply user_cpx|apply user_real|apply user_cpx]. Qed.
  Lemma out_blk_user k p : out_blk k p -> user p.
  Proof. destruct k; [apply user_cpx|apply user_cpx|apply user_real]. Qed.
  Lemma in_ptr_whole k p : in_ptr k p -> whole p.
  Proof. destruct k; unfold in_ptr, whole; auto. Qed.
  Lemma out_ptr_whole k p : out_ptr k p -> whole p.
  Proof. destruct k; unfold out_ptr, whole; auto. Qed.
  Lemma result_stored k inv dims X p i : out_blk k p -> as_stored R p (result k inv dims X i) = result k inv dims X i.
  Proof. destruct k; unfold out_blk, result; destruct p; try contradiction; intros _; reflexivity. Qed.
  Lemma result_scaled k inv dims X p sc i : out_blk k p -> as_stored R p (result k inv dims X i * ofR R sc)%cr = (result k inv dims X i * ofR R sc)%cr.
  Proof.
    destruct k; unfold out_blk, result; destruct p; try contradiction; intros _; try reflexivity.
    unfold as_stored, ofR. cbn [rmul Cr fst snd]. f_equal. ring.
  Qed.

  Lemma fft_ok k inv A dims number ib ob ne1 sc bi bo X m :
    1 <= length dims <= 3 -> A < length dims -> positive dims -> small dims ->
    sized bi (size_in k A dims) -> sized bo (size_out k A dims) ->
    in_blk k (b_ptr bi) -> out_blk k (b_ptr bo) -> in_ptr k ib -> out_ptr k ob ->
    exists be, fft_create ssz AL k inv A dims number = Some be /\
    (memory R ssz m bi bo ib (in_cells (be_planner be)) ob (out_cells (be_planner be)) ->
     (k = C2R -> hermitian R dims X) -> (forall i, as_stored R (match k with R2C => Real 0 | _ => Inter 0 end) (X i) = X i) ->
     holds R m (ixs (size_in k A dims)) (b_ptr bi) (ats (b_stride bi)) X -> (ne1 = false -> sc = 1%cr) ->
     exists m', fft_by_reference ssz R exec be A dims ib ob ne1 sc bi bo m = Some m' /\
       holds R m' (ixs (size_out k A dims)) (b_ptr bo) (ats (b_stride bo)) (fun w => result k inv dims X w * ofR R sc)%cr /\
       changed R m m' (fun c => elements bo c \/ storage ib (in_cells (be_planner be)) c \/ storage ob (out_cells (be_planner be)) c)).
  Proof.
    intros HD HA P S (Bi & Li) (Bo & Lo) Ki Ko Kib Kob.
    destruct (fft_create_ok ssz AL va Cf k inv A dims number HD HA P S) as (be & fl & E & B1 & B2 & B3 & B4 & U & Pr & Pl & _ & Ni & No).
    exists be. split; [exact E|]. rewrite Ni, No. intros (M1 & M2 & M3 & M4 & S1 & S2 & S3 & S4 & S5 & S6) He Hst H Hs.
    unfold fft_by_reference. rewrite B1. rewrite (halve_half A dims HD HA).
    change (match k with C2R => half_at A dims | _ => dims end) with (size_in k A dims).
    change (match k with R2C => half_at A dims | _ => dims end) with (size_out k A dims).
    rewrite Bi, Bo, !leqb_refl. unfold ws_out_of_place, be_out_of_place. rewrite B2, B3, B4.
    assert (Oi : ord (length (b_size bi)) (the_order k (length dims) A)) by (rewrite Bi, size_in_len; apply order_ord, HD).
    assert (Oo : ord (length (b_size bo)) (the_order k (length dims) A)) by (rewrite Bo, size_out_len; apply order_ord, HD).
    assert (Ui : length (b_size bi) = 1 \/ f_unaligned fl = true) by (rewrite Bi, size_in_len; exact U).
    assert (Uo : length (b_size bo) = 1 \/ f_unaligned fl = true) by (rewrite Bo, size_out_len; exact U).
    assert (Li' : length (b_stride bi) = length (b_size bi)) by (rewrite Bi; exact Li).
    assert (Lo' : length (b_stride bo) = length (b_size bo)) by (rewrite Bo; exact Lo).
    destruct (open_fft fl _ bi ib (match k with C2R => 1 <? length dims | _ => false end) Li' Oi Ui) as (wi & Ewi & Gi & Xi & Ai).
    destruct (open_fft fl _ bo ob false Lo' Oo Uo) as (wo & Ewo & Go & Xo & Ao).
    rewrite Ewi, Ewo. cbn [bind]. rewrite Bi in Gi, Xi. rewrite Bo in Go, Xo.
    destruct (sequence_ok R (exec (op_plan (be_planner be)) (ac_ptr wi) (ac_ptr wo)) bi wi ib (prod (size_in k A dims)) (match k with C2R => 1 <? length dims | _ => false end)
      bo wo ob (prod (size_out k A dims)) ne1 sc X (result k inv dims X) m Gi Go (in_blk_user k _ Ki) (out_blk_user k _ Ko) (in_ptr_whole k _ Kib) (out_ptr_whole k _ Kob)) as (m' & Em & Hm & Cm).
    - intros F Z0. destruct Gi as [(_ & _ & _ & _ & Z1)|(a & Ea & _)]; congruence.
    - intros m1 H1 R1 F1 Sc. unfold ac_holds, ac_room, ac_cells in *. rewrite Bi, Bo in *.
      destruct (exec_ok k inv A dims (op_plan (be_planner be)) fl false (ac_ptr wi) (ac_ptr wo) (ac_stride wi) (ac_stride wo) X m1 HD HA Pl) as (m2 & E2 & H2 & C2).
      + apply (good_in k _ _ _ _ _ Gi Ki Kib).
      + apply (good_out k _ _ _ _ _ Go Ko Kob).
      + exact Xi.
      + exact Xo.
      + exact Sc.
      + intros F. split; [apply Ai|apply Ao]; auto; eapply buffer_va; [exact M3|exact M4].
      + rewrite <- Bo. apply (good_dist bo wo ob _ _ Go (out_ptr_whole k _ Kob)). rewrite Bo. exact M2.
      + exact He.
      + exact H1.
      + intros K F. apply F1. rewrite K in *. rewrite (Pr eq_refl) in F. destruct (1 <? length dims); [reflexivity|discriminate].
      + exact R1.
      + exists m2. split; [exact E2|]. split; [exact H2|]. revert C2. apply changed_weak. intros c [C|(K & F & C)]; [left; exact C|right]. split; [|exact C].
        rewrite K in *. rewrite (Pr eq_refl) in F. destruct (1 <? length dims); [reflexivity|discriminate].
    - unfold elt_holds. rewrite Bi. exact H.
    - exact M1.
    - exact M2.
    - apply M3.
    - apply M4.
    - exact S1.
    - exact S2.
    - exact S3.
    - exact S4.
    - exact S5.
    - exact S6.
    - exact Hs.
    - intros i _. specialize (Hst i). destruct k; unfold in_ptr in Kib; destruct ib; try contradiction; exact Hst.
    - intros i _. apply result_stored, Ko.
    - intros i _. apply result_scaled, Ko.
    - exists m'. split; [|split; [unfold elt_holds in Hm; rewrite Bo in Hm; exact Hm|exact Cm]]. rewrite <- Em.
      destruct (copy_in R bi wi m); reflexivity.
  Qed.
End Fft.
