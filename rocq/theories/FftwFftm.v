(** Lemmas about the FFTW backend: transforms in place, and many transforms
    along one dimension of a matrix. *)
From Coq Require Import ZArith List Bool Arith Lia.
From Verif Require Import Base Layout LayoutProofs Dft DftProofs Fftw FftwProofs FftwLayout FftwWs FftwPlan FftwFft.
Import ListNotations.
Local Open Scope nat_scope.

Section Fftm.
  Context (R : CRing) (t : trig R).
  Add Ring Rr : (r_th R).
  Add Ring Cc : (r_th (Cr R)).
  Notation st := (st R). Notation cpx := (Cr R).
  Context (ssz AL va : Z) (Cf : config ssz AL va).
  Context (exec : plan -> ptr -> ptr -> st -> option st) (Doc : documented R t ssz va exec).

  (** ** In place *)
  Lemma sequence_in_place (mid : st -> option st) b w ib Ni ne1 sc x y m :
    good b w ib Ni false -> cpx_ptr (b_ptr b) -> array_of_complex ib ->
    (forall m1, ac_holds R m1 b w x -> ac_room R m1 b w ->
       exists m2, mid m1 = Some m2 /\ ac_holds R m2 b w y /\ changed R m1 m2 (ac_cells b w)) ->
    elt_holds R m b x -> memory1 R ssz m b ib Ni -> (ne1 = false -> sc = 1%cr) ->
    exists m', (m1 <- copy_in R b w m ;; m2 <- mid m1 ;; m3 <- copy_out R b w m2 ;; scale_blk R ne1 sc b m3) = Some m' /\
      elt_holds R m' b (fun i => y i * ofR R sc)%cr /\ changed R m m' (fun c => elements b c \/ storage ib Ni c).
  Proof.
    intros G K Kb Mid H (M1 & M2 & (_ & M3) & M4) Hs.
    assert (U : user (b_ptr b)) by (apply user_cpx, K). assert (W : whole ib) by (left; exact Kb).
    assert (St : forall v, as_stored R (b_ptr b) v = v) by (intros v; destruct (b_ptr b); try contradiction; reflexivity).
    destruct (copy_in_ok R b w ib Ni false x m G U W M4 H M3) as (m1 & E1 & H1 & C1).
    { intros i _. destruct ib; try contradiction; reflexivity. }
    rewrite E1. cbn [bind].
    destruct (Mid m1 H1) as (m2 & E2 & H2 & C2).
    { intros i I. apply (proj2 C1). exact (good_room R b w ib Ni false m G M1 M3 i I). }
    rewrite E2. cbn [bind].
    assert (R2 : room R m2 (ixs (b_size b)) (b_ptr b) (ats (b_stride b))) by (intros i I; apply (proj2 C2), (proj2 C1), M1, I).
    destruct (copy_out_ok R b w ib Ni false y m2 G U W M4 M2 H2 R2) as (m3 & E3 & H3 & C3); [intros; apply St|]. rewrite E3. cbn [bind].
    assert (R3 : room R m3 (ixs (b_size b)) (b_ptr b) (ats (b_stride b))) by (intros i I; apply (proj2 C3), R2, I).
    destruct (scale_blk_ok R ne1 sc b y m3 U Hs M2 H3 R3) as (m4 & E4 & H4 & C4); [intros; apply St|].
    exists m4. split; [exact E4|]. split; [exact H4|].
    apply (changed_trans R m m1 m4); [revert C1; apply changed_weak; tauto|].
    apply (changed_trans R m1 m2 m4); [revert C2; apply changed_weak; intros c X; apply (good_cells _ _ _ _ _ G) in X; tauto|].
    apply (changed_trans R m2 m3 m4); [revert C3|revert C4]; apply changed_weak; tauto.
  Qed.

  Lemma fft_in_place_ok inv A dims number ib ne1 sc b X m :
    1 <= length dims <= 3 -> A < length dims -> positive dims -> small dims ->
    sized b dims -> cpx_ptr (b_ptr b) -> array_of_complex ib ->
    exists be, fft_create ssz AL C2C inv A dims number = Some be /\
    (memory1 R ssz m b ib (in_cells (be_planner be)) -> holds R m (ixs dims) (b_ptr b) (ats (b_stride b)) X -> (ne1 = false -> sc = 1%cr) ->
     exists m', fft_in_place ssz R exec be dims ib ne1 sc b m = Some m' /\
       holds R m' (ixs dims) (b_ptr b) (ats (b_stride b)) (fun w => DFTs R t (if inv then 1 else -1)%Z dims X w * ofR R sc)%cr /\
       changed R m m' (fun c => elements b c \/ storage ib (in_cells (be_planner be)) c)).
  Proof.
    intros HD HA P S (Bs & L) K Kb.
    destruct (fft_create_ok ssz AL va Cf C2C inv A dims number HD HA P S) as (be & fl & E & B1 & B2 & B3 & B4 & U & _ & _ & Ip & Ni & _).
    destruct (Ip eq_refl) as (ip & Ei & Pl). clear Ip.
    exists be. split; [exact E|]. rewrite Ni. cbn [size_in]. intros M H Hs.
    unfold fft_in_place. rewrite Bs, leqb_refl. unfold ws_in_place, be_in_place. rewrite Ei, B2, B4. cbn [bind].
    assert (O : ord (length (b_size b)) (the_order C2C (length dims) A)) by (rewrite Bs; apply order_ord, HD).
    assert (U' : length (b_size b) = 1 \/ f_unaligned fl = true) by (rewrite Bs; exact U).
    assert (L' : length (b_stride b) = length (b_size b)) by (rewrite Bs; exact L).
    destruct (open_fft ssz AL va Cf fl _ b ib false L' O U') as (w & Ew & G & X1 & A1).
    rewrite Ew. cbn [bind]. rewrite Bs in G, X1.
    destruct (sequence_in_place (exec ip (ac_ptr w) (ac_ptr w)) b w ib (prod dims) ne1 sc X (DFTs R t (if inv then 1 else -1)%Z dims X) m G K Kb) as (m' & Em & Hm & Cm).
    - intros m1 H1 R1. unfold ac_holds, ac_room, ac_cells in *. rewrite Bs in *.
      assert (Ka : array_of_complex (ac_ptr w)) by exact (good_in C2C _ _ _ _ _ G K Kb).
      destruct (exec_ok R t ssz va exec Doc C2C inv A dims ip fl true (ac_ptr w) (ac_ptr w) (ac_stride w) (ac_stride w) X m1 HD HA Pl Ka Ka X1 X1) as (m2 & E2 & H2 & C2).
      + auto.
      + intros F. split; apply A1; auto; apply (buffer_va R ssz AL va Cf m ib (prod dims)); apply M.
      + cbn [size_out]. rewrite <- Bs. apply (good_dist b w ib _ _ G (or_introl Kb)). apply M.
      + discriminate.
      + exact H1.
      + discriminate.
      + exact R1.
      + exists m2. split; [exact E2|]. split; [exact H2|]. revert C2. apply changed_weak. intros c [C|(Z0 & _)]; [exact C|discriminate].
    - unfold elt_holds. rewrite Bs. exact H.
    - exact M.
    - exact Hs.
    - exists m'. split; [exact Em|]. split; [unfold elt_holds in Hm; rewrite Bs in Hm; exact Hm|exact Cm].
  Qed.

  (** ** A loop over lines *)
  Lemma rows_ok (f : nat -> st -> option st) (out : nat -> cell -> Prop) (Pre Post : nat -> st -> Prop) n :
    (forall i m, i < n -> Pre i m -> exists m', f i m = Some m' /\ Post i m' /\ changed R m m' (out i)) ->
    (forall i j m m', i < n -> j < n -> i <> j -> changed R m m' (out i) -> Pre j m -> Pre j m') ->
    (forall i j m m', i < n -> j < n -> i <> j -> changed R m m' (out i) -> Post j m -> Post j m') ->
    forall m, (forall i, i < n -> Pre i m) ->
    exists m', loop f 0 n m = Some m' /\ (forall i, i < n -> Post i m') /\ changed R m m' (fun c => exists i, i < n /\ out i c).
  Proof.
    intros F Kp Kq m H.
    assert (X : forall d i m0, i + d = n -> (forall j, i <= j < n -> Pre j m0) -> (forall j, j < i -> Post j m0) ->
      exists m', loop f i d m0 = Some m' /\ (forall j, j < n -> Post j m') /\ changed R m0 m' (fun c => exists j, j < n /\ out j c)).
    { induction d as [|d IH]; intros i m0 E Pr Po; cbn [loop].
      - exists m0. split; [reflexivity|]. split; [intros j J; apply Po; lia|apply changed_refl].
      - destruct (F i m0) as (m1 & E1 & P1 & C1); [lia|apply Pr; lia|]. rewrite E1. cbn [bind].
        destruct (IH (i + 1) m1) as (m2 & E2 & P2 & C2); [lia| | |].
        + intros j J. apply (Kp i j m0 m1); auto; try lia. apply Pr. lia.
        + intros j J. destruct (Nat.eq_dec j i) as [->|N]; [exact P1|]. apply (Kq i j m0 m1); auto; try lia. apply Po. lia.
        + exists m2. split; [exact E2|]. split; [exact P2|]. apply (changed_trans R m0 m1 m2); [|exact C2].
          revert C1. apply changed_weak. intros c C. exists i. split; [lia|exact C]. }
    apply (X n 0 m); [lia|intros; apply H; lia|lia].
  Qed.

  (** ** Planning *)
  Lemma pad_less fl c n a b : (0 < c)%Z -> (AL mod (c * ssz) = 0)%Z -> (0 <= n)%Z ->
    forall o o', rt_pad (rtl AL fl o) (c * ssz) n = Some a -> rt_pad (rtl AL fl o') ssz n = Some b -> (n <= a <= b)%Z.
  Proof.
    intros C M N o o' Ea Eb. pose proof (ssz_pos ssz AL va Cf) as Sp. pose proof (AL_pos ssz AL va Cf) as Ap. pose proof (AL_ssz ssz AL va Cf) as Ms.
    destruct (rt_pad_spec (rtl AL fl o) (c * ssz) n) as (a' & E1 & L1 & Al1 & D1); [nia|exact N|cbn; lia|cbn; auto|].
    destruct (rt_pad_spec (rtl AL fl o') ssz n) as (b' & E2 & L2 & Al2 & D2); [lia|exact N|cbn; lia|cbn; auto|].
    rewrite Ea in E1. rewrite Eb in E2. injection E1 as <-. injection E2 as <-.
    unfold rtl in *. cbn [rt_packing rt_alignment] in *. destruct (f_unaligned fl).
    - rewrite D1, D2 by (left; reflexivity). lia.
    - destruct Al1 as (A1 & A2); [reflexivity|lia|]. destruct Al2 as (A3 & _); [reflexivity|lia|].
      split; [exact L1|]. apply Z.mod_divide in A1 as (u & U); [|lia]. apply Z.mod_divide in A3 as (v & V); [|lia].
      assert (X : (c * v * AL = b * (c * ssz))%Z) by (rewrite <- Z.mul_assoc, <- V; ring).
      assert (Y : (u * AL < (c * v + 1) * AL)%Z).
      { rewrite <- U. rewrite Z.mul_add_distr_r, X. assert (n * (c * ssz) <= b * (c * ssz))%Z by (apply Z.mul_le_mono_nonneg_r; nia). lia. }
      assert (u < c * v + 1)%Z by (apply (Z.mul_lt_mono_pos_r AL); lia).
      assert (a * (c * ssz) <= b * (c * ssz))%Z by (rewrite U, <- X; apply Z.mul_le_mono_nonneg_r; lia).
      apply (Z.mul_le_mono_pos_r a b (c * ssz)); nia.
  Qed.
  (** The size of a buffer for [mult] lines of [n] elements. *)
  Lemma many_cells fl n mult : exists N, buffer_size ssz AL fl [n] mult = Some N /\
    forall q o k s, k <= mult -> 0 < k -> rt_pad (rtl AL fl o) (elem_size ssz q) (Z.of_nat n) = Some s -> (Z.of_nat (k - 1) * s + Z.of_nat n <= N)%Z.
  Proof.
    unfold buffer_size. destruct (plan_layout_ok ssz AL va Cf fl [n]) as (a & Ea & _ & Ta); [cbn; lia|left; reflexivity|].
    rewrite Ea. cbn [bind nth]. destruct (Nat.ltb_spec 1 mult) as [L|L].
    - pose proof (ssz_pos ssz AL va Cf) as Sp. pose proof (AL_pos ssz AL va Cf) as Ap. pose proof (AL_ssz ssz AL va Cf) as Ms.
      destruct (rt_pad_spec (rtl AL fl [0; 1]) ssz (Z.of_nat n)) as (b & Eb & Lb & _); [lia|lia|cbn; lia|cbn; auto|].
      unfold plan_layout, make_rt. rewrite zs_len. cbn [length seq]. destruct (Z.eqb_spec ssz 0); [lia|]. cbn [negb].
      set (lay := rtl AL fl [0; 1]) in *. assert (X : (negb (is_aligned (rt_packing lay)) || (rt_alignment lay =? 0)%Z || (rt_alignment lay mod ssz =? 0)%Z) = true).
      { unfold lay. cbn [rtl rt_alignment]. rewrite Ms. apply Bool.orb_true_r. }
      rewrite X. clear X. unfold zs. change (rt_order lay) with [0; 1]. cbn [dim_ at_ nth map].
      rewrite Eb. cbn [bind]. eexists. split; [reflexivity|]. intros q o k s Hk H0 Es.
      assert (Y : (Z.of_nat n <= s <= b)%Z).
      { pose proof (elem_AL ssz AL Sp q va Cf) as Mq.
        assert (Q : exists c, (0 < c /\ elem_size ssz q = c * ssz)%Z) by (destruct q; [exists 1%Z|exists 2%Z|exists 2%Z|exists 2%Z]; split; try lia; unfold elem_size; ring).
        destruct Q as (c & Hc & Q). rewrite Q in *. apply (pad_less fl c (Z.of_nat n) s b Hc Mq) with (o := o) (o' := [0; 1]); auto; lia. }
      cbn [total_size dim_ at_ nth lset]. nia.
    - eexists. split; [reflexivity|]. intros q o k s Hk H0 _. rewrite Ta. unfold prod, zs. cbn [map fold_right]. replace (k - 1) with 0 by lia. lia.
  Qed.
  Lemma half_pos1 n : 0 < n / 2 + 1. Proof. lia. Qed.
  Lemma fftm_create_ok k inv axis rows cols number : axis < 2 ->
    let n := nth axis [rows; cols] 0 in let mult := nth (1 - axis) [rows; cols] 0 in
    0 < n -> (Z.of_nat n < 2147483648)%Z ->
    exists be fl, fftm_create ssz AL k inv axis rows cols number = Some be /\ be_kind be = k /\ be_axis be = Some axis /\ be_force be = false /\
      be_layout be = rtl AL fl (along axis) /\ (k = C2R -> f_preserve fl = true) /\
      planned k inv 0 [n] (op_plan (be_planner be)) fl false /\
      (k = C2C -> exists ip, ip_plan (be_planner be) = Some ip /\ planned C2C inv 0 [n] ip fl true) /\
      buffer_size ssz AL fl (size_in k 0 [n]) mult = Some (in_cells (be_planner be)) /\
      buffer_size ssz AL fl (size_out k 0 [n]) mult = Some (out_cells (be_planner be)).
  Proof.
    intros HA n mult Hn Hs. unfold fftm_create. fold n. fold mult.
    set (fl := make_flags1 _ _ _ _ _).
    assert (Pr : k = C2R -> f_preserve fl = true) by (intros ->; reflexivity). clearbody fl.
    assert (P : positive [n]) by (repeat constructor; exact Hn).
    assert (S : small [n]) by (unfold small, prod, zs; cbn [map fold_right]; lia).
    destruct (mk_planner_ok ssz AL va Cf k inv 0 fl [n]) as (pr & E & Po & Pi & _); [cbn; lia|cbn; lia|exact P|exact S|left; reflexivity|cbn; lia|].
    destruct (many_cells fl n mult) as (Nn & En & _). destruct (many_cells fl (n / 2 + 1) mult) as (Nh & Eh & _).
    assert (X : exists pr', mk_planner ssz AL k (exponent inv) 0 fl [n] mult = Some pr' /\ op_plan pr' = op_plan pr /\ ip_plan pr' = ip_plan pr /\
       Some (in_cells pr') = buffer_size ssz AL fl (size_in k 0 [n]) mult /\ Some (out_cells pr') = buffer_size ssz AL fl (size_out k 0 [n]) mult).
    { destruct k; cbn [size_in size_out]; unfold mk_planner in *; cbn [turn iosize] in *; change (half_at 0 [n]) with [n / 2 + 1]; rewrite ?En, ?Eh;
        destruct (plan_layout ssz AL fl [n]) as [a|] eqn:E1; try discriminate E; try destruct (plan_layout ssz AL fl [n / 2 + 1]) as [a'|] eqn:E2; try discriminate E; cbn [bind] in *;
        destruct (buffer_size ssz AL fl [n] 1); try discriminate E; try destruct (buffer_size ssz AL fl [n / 2 + 1] 1); try discriminate E; cbn [bind] in *;
        repeat match type of E with context [plan_guru ?a ?b ?c ?d ?e] => destruct (plan_guru a b c d e); [cbn [bind] in *|discriminate E] end;
        injection E as <-; (eexists; split; [reflexivity|cbn; auto]). }
    destruct X as (pr' & E' & X1 & X2 & X3 & X4). rewrite E'. cbn [bind].
    eexists. exists fl. split; [reflexivity|]. cbn [be_kind be_axis be_force be_layout be_planner]. rewrite X1, X2.
    repeat (split; [first [reflexivity|exact Pr|exact Po|exact Pi]|]). auto.
  Qed.

  (** ** The lines of a matrix *)
  Definition row (axis : nat) (X : list nat -> cpx) (i : nat) (j : list nat) : cpx := X (line axis (nth 0 j 0) i).
  Lemma line_ixs axis n k i : ixs (line axis n k) i -> exists h j, i = line axis j h /\ h < k /\ j < n.
  Proof.
    intros I. pose proof (ixs_len _ _ I) as L. unfold line in *. destruct (axis =? 0); cbn [length] in L; lists; fa; eauto 6.
  Qed.
  Lemma ixs_line axis n k h j : h < k -> j < n -> ixs (line axis n k) (line axis j h).
  Proof. intros H J. unfold line. destruct (axis =? 0); repeat constructor; assumption. Qed.
  Lemma ixs1 n i : ixs [n] i -> exists j, i = [j] /\ j < n.
  Proof. intros I. pose proof (ixs_len _ _ I) as L. cbn in L. lists. fa. eauto. Qed.
  Lemma line_len axis n k : length (line axis n k) = 2.
  Proof. unfold line. destruct (axis =? 0); reflexivity. Qed.
  Lemma line_inj axis n k n' k' : line axis n k = line axis n' k' -> n = n' /\ k = k'.
  Proof. unfold line. destruct (axis =? 0); intros E; injection E; auto. Qed.
  Lemma line_nth axis n k : axis < 2 -> nth axis (line axis n k) 0 = n /\ nth (1 - axis) (line axis n k) 0 = k.
  Proof. intros H. destruct axis as [|[|axis]]; [auto|auto|lia]. Qed.

  Section Lines.
    Context (axis n k : nat) (q : ptr) (ss : list Z).
    Context (As : forall i j, i < k -> j < n -> ats ss (line axis j i) = (off i (step axis ss) + Z.of_nat j)%Z).
    Definition lp (i : nat) : ptr := padd q (off i (step axis ss)).
    Lemma line_at i j : i < k -> j < n -> (off i (step axis ss) + ats [1%Z] [j])%Z = ats ss (line axis j i).
    Proof. intros I J. rewrite (As i j I J). cbn [ats]. lia. Qed.
    Lemma line_cells i j : i < k -> j < n -> cells (lp i) (ats [1%Z] [j]) = cells q (ats ss (line axis j i)).
    Proof. intros I J. unfold lp. rewrite cells_padd, (line_at i j I J). reflexivity. Qed.
    Lemma line_touches i c : i < k -> touches (ixs [n]) (lp i) (ats [1%Z]) c -> touches (ixs (line axis n k)) q (ats ss) c.
    Proof.
      intros I (w & W & C). apply ixs1 in W as (j & -> & J). rewrite (line_cells i j I J) in C. exists (line axis j i). split; [apply ixs_line; assumption|exact C].
    Qed.
    Lemma line_holds m x : holds R m (ixs (line axis n k)) q (ats ss) x <-> (forall i, i < k -> holds R m (ixs [n]) (lp i) (ats [1%Z]) (row axis x i)).
    Proof.
      split.
      - intros H i I w W. apply ixs1 in W as (j & -> & J). unfold lp. rewrite get_padd, (line_at i j I J). apply H, ixs_line; assumption.
      - intros H w W. apply line_ixs in W as (i & j & -> & I & J).
        assert (Y : ixs [n] [j]) by (repeat constructor; exact J).
        pose proof (H i I [j] Y) as X. unfold lp in X. rewrite get_padd, (line_at i j I J) in X. exact X.
    Qed.
    Lemma writable_padd m o i : writable R m (padd q o) i <-> writable R m q (o + i).
    Proof.
      unfold writable. rewrite cells_padd. destruct q as [p|p|a b|p]; cbn [padd]; rewrite ?Z.add_assoc; reflexivity.
    Qed.
    Lemma line_room m : room R m (ixs (line axis n k)) q (ats ss) -> forall i, i < k -> room R m (ixs [n]) (lp i) (ats [1%Z]).
    Proof.
      intros H i I w W. apply ixs1 in W as (j & -> & J). apply writable_padd. rewrite (line_at i j I J). apply H, ixs_line; assumption.
    Qed.
    Lemma line_dist : dist (ixs (line axis n k)) q (ats ss) -> forall i, i < k -> dist (ixs [n]) (lp i) (ats [1%Z]).
    Proof.
      intros D i I w w' W W' N c C C'. apply ixs1 in W as (j & -> & J). apply ixs1 in W' as (j' & -> & J').
      rewrite (line_cells i j I J) in C. rewrite (line_cells i j' I J') in C'.
      refine (D _ _ (ixs_line axis n k i j I J) (ixs_line axis n k i j' I J') _ c C C'). intros X. apply line_inj in X as [X _]. congruence.
    Qed.
    Lemma line_apart : dist (ixs (line axis n k)) q (ats ss) -> forall i i', i < k -> i' < k -> i <> i' ->
      separate (touches (ixs [n]) (lp i) (ats [1%Z])) (touches (ixs [n]) (lp i') (ats [1%Z])).
    Proof.
      intros D i i' I I' N c (w & W & C) (w' & W' & C'). apply ixs1 in W as (j & -> & J). apply ixs1 in W' as (j' & -> & J').
      rewrite (line_cells i j I J) in C. rewrite (line_cells i' j' I' J') in C'.
      refine (D _ _ (ixs_line axis n k i j I J) (ixs_line axis n k i' j' I' J') _ c C C'). intros X. apply line_inj in X as [_ X]. congruence.
    Qed.
    Lemma lp_user i : user q -> user (lp i).
    Proof. unfold lp. destruct q; cbn; tauto. Qed.
  End Lines.

  Lemma row0_order k' : the_order k' (length [0]) 0 = [0].
  Proof. destruct k'; reflexivity. Qed.
  Lemma size_in_1 k' n : size_in k' 0 [n] = [match k' with C2R => n / 2 + 1 | _ => n end].
  Proof. destruct k'; reflexivity. Qed.
  Lemma size_out_1 k' n : size_out k' 0 [n] = [match k' with R2C => n / 2 + 1 | _ => n end].
  Proof. destruct k'; reflexivity. Qed.
  Lemma one_ats k' n i : ixs [n] i -> ats [1%Z] i = ats (rowmajor (perm (the_order k' 1 0) [n])) (perm (the_order k' 1 0) i).
  Proof. intros I. apply ixs1 in I as (j & -> & _). destruct k'; reflexivity. Qed.
  Lemma padd_in k' p o : in_ptr k' p -> in_ptr k' (padd p o).
  Proof. destruct k', p; cbn; tauto. Qed.
  Lemma padd_out k' p o : out_ptr k' p -> out_ptr k' (padd p o).
  Proof. destruct k', p; cbn; tauto. Qed.
  Lemma elem_in k' p q : in_ptr k' p -> in_blk k' q -> elem_size ssz p = elem_size ssz q /\ is_split p = false.
  Proof. destruct k', p, q; cbn; try tauto. Qed.
  Lemma elem_out k' p q : out_ptr k' p -> out_blk k' q -> elem_size ssz p = elem_size ssz q /\ is_split p = false.
  Proof. destruct k', p, q; cbn; try tauto. Qed.

  Lemma fftm_ok k inv axis rows cols number kk ib ob ne1 sc bi bo X m :
    axis < 2 ->
    let n := nth axis [rows; cols] 0 in
    let ni := match k with C2R => n / 2 + 1 | _ => n end in let no := match k with R2C => n / 2 + 1 | _ => n end in
    0 < n -> (Z.of_nat n < 2147483648)%Z -> kk <= nth (1 - axis) [rows; cols] 0 ->
    sized bi (line axis ni kk) -> sized bo (line axis no kk) ->
    in_blk k (b_ptr bi) -> out_blk k (b_ptr bo) -> in_ptr k ib -> out_ptr k ob ->
    exists be, fftm_create ssz AL k inv axis rows cols number = Some be /\ be_kind be = k /\
    (memory R ssz m bi bo ib (in_cells (be_planner be)) ob (out_cells (be_planner be)) ->
     (k = C2R -> forall i, i < kk -> hermitian R [n] (row axis X i)) -> (forall i, as_stored R (match k with R2C => Real 0 | _ => Inter 0 end) (X i) = X i) ->
     holds R m (ixs (line axis ni kk)) (b_ptr bi) (ats (b_stride bi)) X -> (ne1 = false -> sc = 1%cr) ->
     exists m', ws_out_of_place ssz R exec be ib ob ne1 sc bi bo m = Some m' /\
       holds R m' (ixs (line axis no kk)) (b_ptr bo) (ats (b_stride bo))
         (fun w => (result R t k inv [n] (row axis X (nth (1 - axis)%nat w 0%nat)) [nth axis w 0%nat] * ofR R sc)%cr) /\
       changed R m m' (fun c => elements bo c \/ storage ib (in_cells (be_planner be)) c \/ storage ob (out_cells (be_planner be)) c)).
  Proof.
    intros HA n ni no Hn Hs Hk (Bi & Li) (Bo & Lo) Ki Ko Kib Kob.
    destruct (fftm_create_ok k inv axis rows cols number HA Hn Hs) as (be & fl & E & B1 & B2 & B3 & B4 & Pr & Pl & _ & Ni & No).
    fold n in Pl, Ni, No. rewrite size_in_1 in Ni. rewrite size_out_1 in No. fold ni in Ni. fold no in No. rewrite line_len in Li, Lo.
    exists be. split; [exact E|]. split; [exact B1|]. intros (M1 & M2 & M3 & M4 & S1 & S2 & S3 & S4 & S5 & S6) He Hst H Hsc.
    destruct (many_cells fl ni (nth (1 - axis) [rows; cols] 0)) as (N1 & En1 & Bd1). rewrite Ni in En1. injection En1 as <-.
    destruct (many_cells fl no (nth (1 - axis) [rows; cols] 0)) as (N2 & En2 & Bd2). rewrite No in En2. injection En2 as <-.
    destruct (open_2 ssz AL (ssz_pos ssz AL va Cf) va bi fl axis ib ni kk (in_cells (be_planner be)) Cf HA Bi Li) as (wi & Ewi & Gi & Xi & Ai).
    { intros s K0 Es. exact (Bd1 _ _ kk s Hk K0 Es). }
    destruct (open_2 ssz AL (ssz_pos ssz AL va Cf) va bo fl axis ob no kk (out_cells (be_planner be)) Cf HA Bo Lo) as (wo & Ewo & Go & Xo & Ao).
    { intros s K0 Es. exact (Bd2 _ _ kk s Hk K0 Es). }
    unfold ws_out_of_place, be_out_of_place. rewrite B1, B2, B3, B4, Ewi, Ewo. cbn [bind].
    set (mid := loop (fun i m' => exec (op_plan (be_planner be)) (padd (ac_ptr wi) (off i (step axis (ac_stride wi)))) (padd (ac_ptr wo) (off i (step axis (ac_stride wo)))) m') 0 kk).
    set (y := fun w => result R t k inv [n] (row axis X (nth (1 - axis) w 0)) [nth axis w 0]).
    assert (Oin : forall i, as_stored R (b_ptr bo) (y i) = y i) by (intros i; apply result_stored, Ko).
    destruct (sequence_ok R mid bi wi ib (in_cells (be_planner be)) false bo wo ob (out_cells (be_planner be)) ne1 sc X y m
                Gi Go (in_blk_user k _ Ki) (out_blk_user k _ Ko) (in_ptr_whole k _ Kib) (out_ptr_whole k _ Kob)) as (m' & Em & Hm & Cm).
    - discriminate.
    - intros m1 H1 R1 _ Sc. unfold ac_holds, ac_room, ac_cells in *. rewrite Bi in *. rewrite Bo in *.
      pose proof (good_in k _ _ _ _ _ Gi Ki Kib) as Pi. pose proof (good_out k _ _ _ _ _ Go Ko Kob) as Po.
      assert (Dw : dist (ixs (line axis no kk)) (ac_ptr wo) (ats (ac_stride wo))).
      { rewrite <- Bo. apply (good_dist bo wo ob _ _ Go (out_ptr_whole k _ Kob)). rewrite Bo. exact M2. }
      assert (Uo : forall i, user (lp axis (ac_ptr wo) (ac_stride wo) i)) by (intros i; apply lp_user, whole_user, (out_ptr_whole k), Po).
      assert (Ui : forall i, user (lp axis (ac_ptr wi) (ac_stride wi) i)) by (intros i; apply lp_user, whole_user, (in_ptr_whole k), Pi).
      pose proof (proj1 (line_holds axis ni kk (ac_ptr wi) (ac_stride wi) Xi m1 X) H1) as H1'.
      pose proof (line_room axis no kk (ac_ptr wo) (ac_stride wo) Xo m1 R1) as R1'.
      destruct (rows_ok (fun i m' => exec (op_plan (be_planner be)) (lp axis (ac_ptr wi) (ac_stride wi) i) (lp axis (ac_ptr wo) (ac_stride wo) i) m')
        (fun i => touches (ixs [no]) (lp axis (ac_ptr wo) (ac_stride wo) i) (ats [1%Z]))
        (fun i m' => holds R m' (ixs [ni]) (lp axis (ac_ptr wi) (ac_stride wi) i) (ats [1%Z]) (row axis X i) /\ room R m' (ixs [no]) (lp axis (ac_ptr wo) (ac_stride wo) i) (ats [1%Z]))
        (fun i m' => holds R m' (ixs [no]) (lp axis (ac_ptr wo) (ac_stride wo) i) (ats [1%Z]) (result R t k inv [n] (row axis X i))) kk) with (m := m1) as (m2 & E2 & H2 & C2).
      + intros i m0 I (Hh & Hr).
        pose proof (exec_ok R t ssz va exec Doc k inv 0 [n] (op_plan (be_planner be)) fl false
          (lp axis (ac_ptr wi) (ac_stride wi) i) (lp axis (ac_ptr wo) (ac_stride wo) i) [1%Z] [1%Z] (row axis X i) m0) as Ex.
        cbn [length] in Ex. rewrite size_in_1, size_out_1 in Ex. fold ni in Ex. fold no in Ex.
        destruct Ex as (m3 & E3 & H3 & C3).
        * lia.
        * lia.
        * exact Pl.
        * apply padd_in, Pi.
        * apply padd_out, Po.
        * apply one_ats.
        * apply one_ats.
        * intros c C1 C2. apply (Sc c); [apply (line_touches axis ni kk _ _ Xi i c I C1)|apply (line_touches axis no kk _ _ Xo i c I C2)].
        * intros F. split; [apply Ai|apply Ao]; auto; try (eapply buffer_va; [exact Cf|first [exact M3|exact M4]]); first [apply (elem_in k); assumption|apply (elem_out k); assumption|idtac];
            first [apply (proj2 (elem_in k _ _ Kib Ki))|apply (proj2 (elem_out k _ _ Kob Ko))].
        * apply (line_dist axis no kk _ _ Xo Dw i I).
        * intros K. apply He; [exact K|exact I].
        * exact Hh.
        * intros K F. rewrite (Pr K) in F. discriminate.
        * exact Hr.
        * exists m3. split; [exact E3|]. split; [exact H3|]. revert C3. apply changed_weak. intros c [C|(K & F & _)]; [exact C|]. rewrite (Pr K) in F. discriminate.
      + intros i j m0 m3 I J N C (Hh & Hr). split.
        * apply (holds_changed R m0 m3 _ _ _ _ _ (Ui j) C); [|exact Hh]. intros w W c Cc (w' & W' & C').
          apply (Sc c); [apply (line_touches axis ni kk _ _ Xi j c J)|apply (line_touches axis no kk _ _ Xo i c I)]; [exists w|exists w']; auto.
        * apply (room_changed R m0 m3 _ _ _ _ C Hr).
      + intros i j m0 m3 I J N C Hh. apply (holds_changed R m0 m3 _ _ _ _ _ (Uo j) C); [|exact Hh]. intros w W c Cc T.
        apply (line_apart axis no kk _ _ Xo Dw i j I J N c T). exists w. auto.
      + intros i I. split; [apply H1', I|apply R1', I].
      + exists m2. split; [exact E2|]. split.
        * apply (line_holds axis no kk (ac_ptr wo) (ac_stride wo) Xo). intros i I w W. rewrite (H2 i I w W). f_equal.
          apply ixs1 in W as (j & -> & _). unfold row at 2, y. cbn [nth].
          destruct (line_nth axis j i HA) as (-> & ->). reflexivity.
        * revert C2. apply changed_weak. intros c (i & I & C). left. apply (line_touches axis no kk _ _ Xo i c I C).
    - unfold elt_holds. rewrite Bi. exact H.
    - exact M1.
    - exact M2.
    - apply M3.
    - apply M4.
    - exact S1.
    - exact S2.
    - exact S3.
    - exact S4.
    - exact S5.
    - exact S6.
    - exact Hsc.
    - intros i _. specialize (Hst i). destruct k; unfold in_ptr in Kib; destruct ib; try contradiction; exact Hst.
    - intros i _. apply Oin.
    - intros i _. apply result_scaled, Ko.
    - exists m'. split; [|split; [unfold elt_holds in Hm; rewrite Bo in Hm; exact Hm|exact Cm]]. rewrite <- Em.
      assert (Mk : (if axis =? 1 then nth 0 (match k with C2R => b_size bo | _ => b_size bi end) 0 else nth 1 (match k with C2R => b_size bo | _ => b_size bi end) 0) = kk).
      { rewrite Bi, Bo. destruct axis as [|[|axis]]; [| |lia]; destruct k; reflexivity. }
      rewrite Mk. destruct (copy_in R bi wi m); reflexivity.
  Qed.

  Lemma fftm_in_place_ok inv axis rows cols number kk ib ne1 sc b X m :
    axis < 2 ->
    let n := nth axis [rows; cols] 0 in
    0 < n -> (Z.of_nat n < 2147483648)%Z -> kk <= nth (1 - axis) [rows; cols] 0 ->
    sized b (line axis n kk) -> cpx_ptr (b_ptr b) -> array_of_complex ib ->
    exists be, fftm_create ssz AL C2C inv axis rows cols number = Some be /\
    (memory1 R ssz m b ib (in_cells (be_planner be)) ->
     holds R m (ixs (line axis n kk)) (b_ptr b) (ats (b_stride b)) X -> (ne1 = false -> sc = 1%cr) ->
     exists m', ws_in_place ssz R exec be ib ne1 sc b m = Some m' /\
       holds R m' (ixs (line axis n kk)) (b_ptr b) (ats (b_stride b))
         (fun w => (DFTs R t (if inv then 1 else -1)%Z [n] (row axis X (nth (1 - axis)%nat w 0%nat)) [nth axis w 0%nat] * ofR R sc)%cr) /\
       changed R m m' (fun c => elements b c \/ storage ib (in_cells (be_planner be)) c)).
  Proof.
    intros HA n Hn Hs Hk (Bs & L) K Kb.
    destruct (fftm_create_ok C2C inv axis rows cols number HA Hn Hs) as (be & fl & E & B1 & B2 & B3 & B4 & _ & _ & Ip & Ni & _).
    fold n in Ip, Ni. destruct (Ip eq_refl) as (ip & Ei & Pl). clear Ip. cbn [size_in] in Ni. rewrite line_len in L.
    exists be. split; [exact E|]. intros M H Hsc.
    destruct (many_cells fl n (nth (1 - axis) [rows; cols] 0)) as (N1 & En1 & Bd1). rewrite Ni in En1. injection En1 as <-.
    destruct (open_2 ssz AL (ssz_pos ssz AL va Cf) va b fl axis ib n kk (in_cells (be_planner be)) Cf HA Bs L) as (w & Ew & G & X1 & A1).
    { intros s K0 Es. exact (Bd1 _ _ kk s Hk K0 Es). }
    unfold ws_in_place, be_in_place. rewrite B2, B4, Ew, Ei. cbn [bind].
    set (mid := loop (fun i m' => exec ip (padd (ac_ptr w) (off i (step axis (ac_stride w)))) (padd (ac_ptr w) (off i (step axis (ac_stride w)))) m') 0 kk).
    destruct (sequence_in_place mid b w ib (in_cells (be_planner be)) ne1 sc X
      (fun w => DFTs R t (if inv then 1 else -1)%Z [n] (row axis X (nth (1 - axis) w 0)) [nth axis w 0]) m G K Kb) as (m' & Em & Hm & Cm).
    - intros m1 H1 R1. unfold ac_holds, ac_room, ac_cells in *. rewrite Bs in *.
      assert (Ka : array_of_complex (ac_ptr w)) by exact (good_in C2C _ _ _ _ _ G K Kb).
      assert (Dw : dist (ixs (line axis n kk)) (ac_ptr w) (ats (ac_stride w))).
      { rewrite <- Bs. apply (good_dist b w ib _ _ G (or_introl Kb)). apply M. }
      assert (U : forall i, user (lp axis (ac_ptr w) (ac_stride w) i)) by (intros i; apply lp_user, user_arr, Ka).
      pose proof (proj1 (line_holds axis n kk (ac_ptr w) (ac_stride w) X1 m1 X) H1) as H1'.
      pose proof (line_room axis n kk (ac_ptr w) (ac_stride w) X1 m1 R1) as R1'.
      destruct (rows_ok (fun i m' => exec ip (lp axis (ac_ptr w) (ac_stride w) i) (lp axis (ac_ptr w) (ac_stride w) i) m')
        (fun i => touches (ixs [n]) (lp axis (ac_ptr w) (ac_stride w) i) (ats [1%Z]))
        (fun i m' => holds R m' (ixs [n]) (lp axis (ac_ptr w) (ac_stride w) i) (ats [1%Z]) (row axis X i) /\ room R m' (ixs [n]) (lp axis (ac_ptr w) (ac_stride w) i) (ats [1%Z]))
        (fun i m' => holds R m' (ixs [n]) (lp axis (ac_ptr w) (ac_stride w) i) (ats [1%Z]) (DFTs R t (if inv then 1 else -1)%Z [n] (row axis X i))) kk) with (m := m1) as (m2 & E2 & H2 & C2).
      + intros i m0 I (Hh & Hr).
        pose proof (exec_ok R t ssz va exec Doc C2C inv 0 [n] ip fl true
          (lp axis (ac_ptr w) (ac_stride w) i) (lp axis (ac_ptr w) (ac_stride w) i) [1%Z] [1%Z] (row axis X i) m0) as Ex.
        cbn [length size_in size_out] in Ex.
        destruct Ex as (m3 & E3 & H3 & C3).
        * lia.
        * lia.
        * exact Pl.
        * apply (padd_in C2C), Ka.
        * apply (padd_out C2C), Ka.
        * apply (one_ats C2C).
        * apply (one_ats C2C).
        * auto.
        * assert (Ad : f_unaligned fl = false -> (address ssz (lp axis (ac_ptr w) (ac_stride w) i) mod va = 0)%Z).
          { intros F. apply A1; auto; [apply (buffer_va R ssz AL va Cf m ib (in_cells (be_planner be))), M|apply (proj2 (elem_in C2C _ _ Kb K))|apply (proj1 (elem_in C2C _ _ Kb K))]. }
          auto.
        * apply (line_dist axis n kk _ _ X1 Dw i I).
        * discriminate.
        * exact Hh.
        * discriminate.
        * exact Hr.
        * exists m3. split; [exact E3|]. split; [exact H3|]. revert C3. apply changed_weak. intros c [C|(Z0 & _)]; [exact C|discriminate].
      + intros i j m0 m3 I J N C (Hh & Hr). split.
        * apply (holds_changed R m0 m3 _ _ _ _ _ (U j) C); [|exact Hh]. intros v W c Cc T.
          apply (line_apart axis n kk _ _ X1 Dw i j I J N c T). exists v. auto.
        * apply (room_changed R m0 m3 _ _ _ _ C Hr).
      + intros i j m0 m3 I J N C Hh. apply (holds_changed R m0 m3 _ _ _ _ _ (U j) C); [|exact Hh]. intros v W c Cc T.
        apply (line_apart axis n kk _ _ X1 Dw i j I J N c T). exists v. auto.
      + intros i I. split; [apply H1', I|apply R1', I].
      + exists m2. split; [exact E2|]. split.
        * apply (line_holds axis n kk (ac_ptr w) (ac_stride w) X1). intros i I v W. rewrite (H2 i I v W). f_equal.
          apply ixs1 in W as (j & -> & _). unfold row at 2. cbn [nth].
          destruct (line_nth axis j i HA) as (-> & ->). reflexivity.
        * revert C2. apply changed_weak. intros c (i & I & C). apply (line_touches axis n kk _ _ X1 i c I C).
    - unfold elt_holds. rewrite Bs. exact H.
    - exact M.
    - exact Hsc.
    - exists m'. split; [|split; [unfold elt_holds in Hm; rewrite Bs in Hm; exact Hm|exact Cm]]. rewrite <- Em.
      assert (Mk : (if axis =? 1 then nth 0 (b_size b) 0 else nth 1 (b_size b) 0) = kk).
      { rewrite Bs. destruct axis as [|[|axis]]; [| |lia]; reflexivity. }
      rewrite Mk. reflexivity.
  Qed.
End Fftm.
