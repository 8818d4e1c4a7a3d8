(** The theorems about the FFTW backend, in the form FftwProps.v states them. *)
From Coq Require Import ZArith List Bool Arith Lia.
From Verif Require Import Base Layout LayoutProofs Dft DftProofs Fftw FftwProofs FftwLayout FftwWs FftwPlan FftwFft FftwFftm.
Import ListNotations.
Local Open Scope nat_scope.

Section Main.
  Context (R : CRing) (t : trig R).
  Add Ring Rr2 : (r_th R).
  Add Ring Cc2 : (r_th (Cr R)).
  Context (ssz AL va : Z) (exec : plan -> ptr -> ptr -> st R -> option (st R)).

  Lemma fst_ofR z k : (ofR R z * ofR R k)%cr = ofR R (z * k)%cr :> Cr R.
  Proof. unfold ofR. cbn. f_equal; ring. Qed.

  Lemma DFTs_zero e ns w : DFTs R t e ns (fun _ => 0%cr) w = 0%cr.
  Proof.
    revert w. induction ns as [|n ns IH]; intros w; [reflexivity|]. destruct w as [|k w]; [reflexivity|]. cbn [DFTs].
    apply sum_0. intros i _. rewrite IH. ring.
  Qed.
  Lemma C71_created_lemma k inv A dims number :
    config ssz AL va -> 1 <= length dims <= 3 -> A < length dims -> Forall (fun n => 0 < n) dims ->
    (fold_right Z.mul 1 (map Z.of_nat dims) < 2147483648)%Z ->
    exists be, fft_create ssz AL k inv A dims number = Some be.
  Proof.
    intros Cf L A1 P S. destruct (fft_create_ok ssz AL va Cf k inv A dims number L A1 P S) as (be & fl & E & _). exists be. exact E.
  Qed.
  Lemma C71_many_created_lemma k inv axis rows cols number :
    config ssz AL va -> axis < 2 -> 0 < nth axis [rows; cols] 0 -> (Z.of_nat (nth axis [rows; cols] 0%nat) < 2147483648)%Z ->
    exists be, fftm_create ssz AL k inv axis rows cols number = Some be.
  Proof.
    intros Cf A1 P S. destruct (fftm_create_ok ssz AL va Cf k inv axis rows cols number A1 P S) as (be & fl & E & _). exists be. exact E.
  Qed.

  Lemma C71_complex_lemma inv A dims number be ib ob ne1 sc bi bo X m :
    config ssz AL va -> documented R t ssz va exec ->
    1 <= length dims <= 3 -> A < length dims -> Forall (fun n => 0 < n) dims ->
    (fold_right Z.mul 1 (map Z.of_nat dims) < 2147483648)%Z ->
    fft_create ssz AL C2C inv A dims number = Some be ->
    sized bi dims -> sized bo dims -> cpx_ptr (b_ptr bi) -> cpx_ptr (b_ptr bo) -> array_of_complex ib -> array_of_complex ob ->
    memory R ssz m bi bo ib (in_cells (be_planner be)) ob (out_cells (be_planner be)) ->
    holds R m (ixs dims) (b_ptr bi) (ats (b_stride bi)) X -> (ne1 = false -> sc = 1%cr) ->
    exists m', fft_by_reference ssz R exec be A dims ib ob ne1 sc bi bo m = Some m' /\
      holds R m' (ixs dims) (b_ptr bo) (ats (b_stride bo)) (fun w => DFTs R t (if inv then 1 else -1)%Z dims X w * ofR R sc)%cr /\
      changed R m m' (fun c => elements bo c \/ storage ib (in_cells (be_planner be)) c \/ storage ob (out_cells (be_planner be)) c).
  Proof.
    intros Cf Doc L A1 P S E Si So Bi Bo Pi Po M H N.
    destruct (fft_ok R t ssz AL va Cf exec Doc C2C inv A dims number ib ob ne1 sc bi bo X m L A1 P S Si So Bi Bo Pi Po) as (be' & E' & K).
    rewrite E in E'. injection E' as <-. apply K; auto. discriminate.
  Qed.

  Lemma C71_real_to_complex_lemma inv A dims number be ib ob ne1 sc bi bo x m :
    config ssz AL va -> documented R t ssz va exec ->
    1 <= length dims <= 3 -> A < length dims -> Forall (fun n => 0 < n) dims ->
    (fold_right Z.mul 1 (map Z.of_nat dims) < 2147483648)%Z ->
    fft_create ssz AL R2C inv A dims number = Some be ->
    sized bi dims -> sized bo (half_at A dims) -> real_ptr (b_ptr bi) -> cpx_ptr (b_ptr bo) -> real_ptr ib -> array_of_complex ob ->
    memory R ssz m bi bo ib (in_cells (be_planner be)) ob (out_cells (be_planner be)) ->
    holds R m (ixs dims) (b_ptr bi) (ats (b_stride bi)) (fun i => ofR R (x i)) -> (ne1 = false -> sc = 1%cr) ->
    exists m', fft_by_reference ssz R exec be A dims ib ob ne1 sc bi bo m = Some m' /\
      holds R m' (ixs (half_at A dims)) (b_ptr bo) (ats (b_stride bo)) (fun w => DFTs R t (-1)%Z dims (fun i => ofR R (x i)) w * ofR R sc)%cr /\
      changed R m m' (fun c => elements bo c \/ storage ib (in_cells (be_planner be)) c \/ storage ob (out_cells (be_planner be)) c).
  Proof.
    intros Cf Doc L A1 P S E Si So Bi Bo Pi Po M H N.
    destruct (fft_ok R t ssz AL va Cf exec Doc R2C inv A dims number ib ob ne1 sc bi bo (fun i => ofR R (x i)) m L A1 P S Si So Bi Bo Pi Po) as (be' & E' & K).
    rewrite E in E'. injection E' as <-. apply K; auto. discriminate.
  Qed.

  Lemma C71_complex_to_real_lemma inv A dims number be ib ob ne1 sc bi bo X m :
    config ssz AL va -> documented R t ssz va exec ->
    1 <= length dims <= 3 -> A < length dims -> Forall (fun n => 0 < n) dims ->
    (fold_right Z.mul 1 (map Z.of_nat dims) < 2147483648)%Z ->
    fft_create ssz AL C2R inv A dims number = Some be ->
    sized bi (half_at A dims) -> sized bo dims -> cpx_ptr (b_ptr bi) -> real_ptr (b_ptr bo) -> array_of_complex ib -> real_ptr ob ->
    memory R ssz m bi bo ib (in_cells (be_planner be)) ob (out_cells (be_planner be)) ->
    hermitian R dims X -> holds R m (ixs (half_at A dims)) (b_ptr bi) (ats (b_stride bi)) X -> (ne1 = false -> sc = 1%cr) ->
    exists m', fft_by_reference ssz R exec be A dims ib ob ne1 sc bi bo m = Some m' /\
      holds R m' (ixs dims) (b_ptr bo) (ats (b_stride bo)) (fun w => ofR R (fst (DFTs R t 1%Z dims X w) * sc)%cr) /\
      changed R m m' (fun c => elements bo c \/ storage ib (in_cells (be_planner be)) c \/ storage ob (out_cells (be_planner be)) c).
  Proof.
    intros Cf Doc L A1 P S E Si So Bi Bo Pi Po M Hm H N.
    destruct (fft_ok R t ssz AL va Cf exec Doc C2R inv A dims number ib ob ne1 sc bi bo X m L A1 P S Si So Bi Bo Pi Po) as (be' & E' & K).
    rewrite E in E'. injection E' as <-. destruct K as (m' & E1 & H1 & C1); auto.
    exists m'. split; [exact E1|]. split; [|exact C1]. intros i I. rewrite (H1 i I). unfold result. rewrite fst_ofR. reflexivity.
  Qed.

  Lemma C71_in_place_lemma inv A dims number be ib ne1 sc b X m :
    config ssz AL va -> documented R t ssz va exec ->
    1 <= length dims <= 3 -> A < length dims -> Forall (fun n => 0 < n) dims ->
    (fold_right Z.mul 1 (map Z.of_nat dims) < 2147483648)%Z ->
    fft_create ssz AL C2C inv A dims number = Some be ->
    sized b dims -> cpx_ptr (b_ptr b) -> array_of_complex ib ->
    memory1 R ssz m b ib (in_cells (be_planner be)) ->
    holds R m (ixs dims) (b_ptr b) (ats (b_stride b)) X -> (ne1 = false -> sc = 1%cr) ->
    exists m', fft_in_place ssz R exec be dims ib ne1 sc b m = Some m' /\
      holds R m' (ixs dims) (b_ptr b) (ats (b_stride b)) (fun w => DFTs R t (if inv then 1 else -1)%Z dims X w * ofR R sc)%cr /\
      changed R m m' (fun c => elements b c \/ storage ib (in_cells (be_planner be)) c).
  Proof.
    intros Cf Doc L A1 P S E Si Bi Pi M H N.
    destruct (fft_in_place_ok R t ssz AL va Cf exec Doc inv A dims number ib ne1 sc b X m L A1 P S Si Bi Pi) as (be' & E' & K).
    rewrite E in E'. injection E' as <-. apply K; auto.
  Qed.

  (** ** Many transforms *)
  Lemma half_line axis rows cols : axis < 2 -> halve axis [rows; cols] = half_at axis [rows; cols].
  Proof. intros H. apply halve_half; cbn [length]; lia. Qed.
  Lemma par_okay d : par_ok (Some ((1, 1), (d, d))) = true.
  Proof. cbn. destruct (list_eq_dec pair_dec d d); [reflexivity|congruence]. Qed.
  Lemma par_okay' par : (par = None \/ exists d, par = Some ((1, 1), (d, d))) -> par_ok par = true.
  Proof. intros [->|(d & ->)]; [reflexivity|apply par_okay]. Qed.

  Lemma C71_many_complex_lemma inv axis rows cols number be ib ob ne1 sc par k bi bo X m :
    config ssz AL va -> documented R t ssz va exec -> axis < 2 ->
    let n := nth axis [rows; cols] 0 in
    0 < n -> (Z.of_nat n < 2147483648)%Z -> k <= nth (1 - axis) [rows; cols] 0 ->
    fftm_create ssz AL C2C inv axis rows cols number = Some be ->
    (par = None \/ exists d, par = Some ((1, 1), (d, d))) ->
    sized bi (line axis n k) -> sized bo (line axis n k) -> cpx_ptr (b_ptr bi) -> cpx_ptr (b_ptr bo) -> array_of_complex ib -> array_of_complex ob ->
    memory R ssz m bi bo ib (in_cells (be_planner be)) ob (out_cells (be_planner be)) ->
    holds R m (ixs (line axis n k)) (b_ptr bi) (ats (b_stride bi)) X -> (ne1 = false -> sc = 1%cr) ->
    exists m', fftm_by_reference ssz R exec be axis [rows; cols] ib ob ne1 sc [rows; cols] [rows; cols] par bi bo m = Some m' /\
      (forall h, h < k -> holds R m' (ixs [n]) (b_ptr bo) (fun w => ats (b_stride bo) (line axis (nth 0 w 0) h))
         (fun w => DFTs R t (if inv then 1 else -1)%Z [n] (fun i => X (line axis (nth 0%nat i 0%nat) h)) w * ofR R sc)%cr) /\
      changed R m m' (fun c => elements bo c \/ storage ib (in_cells (be_planner be)) c \/ storage ob (out_cells (be_planner be)) c).
  Proof.
    intros Cf Doc A1 n P S Kk E Pk Si So Bi Bo Pi Po M H N.
    destruct (fftm_ok R t ssz AL va Cf exec Doc C2C inv axis rows cols number k ib ob ne1 sc bi bo X m A1 P S Kk Si So Bi Bo Pi Po) as (be' & E' & Bk & K).
    rewrite E in E'. injection E' as <-. destruct K as (m' & E1 & H1 & C1); auto; [discriminate|].
    exists m'. split; [|split; [|exact C1]].
    - unfold fftm_by_reference. rewrite Bk, !leqb_refl, (par_okay' _ Pk). exact E1.
    - intros h Hh w Hw. destruct (ixs1 _ _ Hw) as (j & -> & Hj). cbn [nth].
      rewrite (H1 (line axis j h) (ixs_line axis n k h j Hh Hj)). destruct (line_nth axis j h A1) as (-> & ->). reflexivity.
  Qed.

  Lemma C71_many_real_to_complex_lemma inv axis rows cols number be ib ob ne1 sc k bi bo x m :
    config ssz AL va -> documented R t ssz va exec -> axis < 2 ->
    let n := nth axis [rows; cols] 0 in
    0 < n -> (Z.of_nat n < 2147483648)%Z -> k <= nth (1 - axis) [rows; cols] 0 ->
    fftm_create ssz AL R2C inv axis rows cols number = Some be ->
    sized bi (line axis n k) -> sized bo (line axis (n / 2 + 1) k) -> real_ptr (b_ptr bi) -> cpx_ptr (b_ptr bo) -> real_ptr ib -> array_of_complex ob ->
    memory R ssz m bi bo ib (in_cells (be_planner be)) ob (out_cells (be_planner be)) ->
    holds R m (ixs (line axis n k)) (b_ptr bi) (ats (b_stride bi)) (fun i => ofR R (x i)) -> (ne1 = false -> sc = 1%cr) ->
    exists m', fftm_by_reference ssz R exec be axis [rows; cols] ib ob ne1 sc [rows; cols] (half_at axis [rows; cols]) None bi bo m = Some m' /\
      (forall h, h < k -> holds R m' (ixs [n / 2 + 1]) (b_ptr bo) (fun w => ats (b_stride bo) (line axis (nth 0 w 0) h))
         (fun w => DFTs R t (-1)%Z [n] (fun i => ofR R (x (line axis (nth 0%nat i 0%nat) h))) w * ofR R sc)%cr) /\
      changed R m m' (fun c => elements bo c \/ storage ib (in_cells (be_planner be)) c \/ storage ob (out_cells (be_planner be)) c).
  Proof.
    intros Cf Doc A1 n P S Kk E Si So Bi Bo Pi Po M H N.
    destruct (fftm_ok R t ssz AL va Cf exec Doc R2C inv axis rows cols number k ib ob ne1 sc bi bo (fun i => ofR R (x i)) m A1 P S Kk Si So Bi Bo Pi Po) as (be' & E' & Bk & K).
    rewrite E in E'. injection E' as <-. destruct K as (m' & E1 & H1 & C1); auto; [discriminate|].
    exists m'. split; [|split; [|exact C1]].
    - unfold fftm_by_reference. rewrite Bk, half_line, !leqb_refl by exact A1. exact E1.
    - intros h Hh w Hw. destruct (ixs1 _ _ Hw) as (j & -> & Hj). cbn [nth].
      rewrite (H1 (line axis j h) (ixs_line axis _ k h j Hh Hj)). destruct (line_nth axis j h A1) as (-> & ->). reflexivity.
  Qed.

  Lemma C71_many_complex_to_real_lemma inv axis rows cols number be ib ob ne1 sc k bi bo X m :
    config ssz AL va -> documented R t ssz va exec -> axis < 2 ->
    let n := nth axis [rows; cols] 0 in
    0 < n -> (Z.of_nat n < 2147483648)%Z -> k <= nth (1 - axis) [rows; cols] 0 ->
    fftm_create ssz AL C2R inv axis rows cols number = Some be ->
    sized bi (line axis (n / 2 + 1) k) -> sized bo (line axis n k) -> cpx_ptr (b_ptr bi) -> real_ptr (b_ptr bo) -> array_of_complex ib -> real_ptr ob ->
    memory R ssz m bi bo ib (in_cells (be_planner be)) ob (out_cells (be_planner be)) ->
    (forall h, h < k -> hermitian R [n] (fun i => X (line axis (nth 0 i 0) h))) ->
    holds R m (ixs (line axis (n / 2 + 1) k)) (b_ptr bi) (ats (b_stride bi)) X -> (ne1 = false -> sc = 1%cr) ->
    exists m', fftm_by_reference ssz R exec be axis [rows; cols] ib ob ne1 sc (half_at axis [rows; cols]) [rows; cols] None bi bo m = Some m' /\
      (forall h, h < k -> holds R m' (ixs [n]) (b_ptr bo) (fun w => ats (b_stride bo) (line axis (nth 0 w 0) h))
         (fun w => ofR R (fst (DFTs R t 1%Z [n] (fun i => X (line axis (nth 0%nat i 0%nat) h)) w) * sc)%cr)) /\
      changed R m m' (fun c => elements bo c \/ storage ib (in_cells (be_planner be)) c \/ storage ob (out_cells (be_planner be)) c).
  Proof.
    intros Cf Doc A1 n P S Kk E Si So Bi Bo Pi Po M Hm H N.
    destruct (fftm_ok R t ssz AL va Cf exec Doc C2R inv axis rows cols number k ib ob ne1 sc bi bo X m A1 P S Kk Si So Bi Bo Pi Po) as (be' & E' & Bk & K).
    rewrite E in E'. injection E' as <-. destruct K as (m' & E1 & H1 & C1); auto.
    exists m'. split; [|split; [|exact C1]].
    - unfold fftm_by_reference. rewrite Bk, half_line, !leqb_refl by exact A1. exact E1.
    - intros h Hh w Hw. destruct (ixs1 _ _ Hw) as (j & -> & Hj). cbn [nth].
      rewrite (H1 (line axis j h) (ixs_line axis _ k h j Hh Hj)). destruct (line_nth axis j h A1) as (-> & ->). unfold result. rewrite fst_ofR. reflexivity.
  Qed.

  Lemma C71_many_in_place_lemma inv axis rows cols number be ib ne1 sc par k b X m :
    config ssz AL va -> documented R t ssz va exec -> axis < 2 ->
    let n := nth axis [rows; cols] 0 in
    0 < n -> (Z.of_nat n < 2147483648)%Z -> k <= nth (1 - axis) [rows; cols] 0 ->
    fftm_create ssz AL C2C inv axis rows cols number = Some be ->
    (par = None \/ par = Some 1) ->
    sized b (line axis n k) -> cpx_ptr (b_ptr b) -> array_of_complex ib ->
    memory1 R ssz m b ib (in_cells (be_planner be)) ->
    holds R m (ixs (line axis n k)) (b_ptr b) (ats (b_stride b)) X -> (ne1 = false -> sc = 1%cr) ->
    exists m', fftm_in_place ssz R exec be [rows; cols] ib ne1 sc [rows; cols] par b m = Some m' /\
      (forall h, h < k -> holds R m' (ixs [n]) (b_ptr b) (fun w => ats (b_stride b) (line axis (nth 0 w 0) h))
         (fun w => DFTs R t (if inv then 1 else -1)%Z [n] (fun i => X (line axis (nth 0%nat i 0%nat) h)) w * ofR R sc)%cr) /\
      changed R m m' (fun c => elements b c \/ storage ib (in_cells (be_planner be)) c).
  Proof.
    intros Cf Doc A1 n P S Kk E Pk Si Bi Pi M H N.
    destruct (fftm_in_place_ok R t ssz AL va Cf exec Doc inv axis rows cols number k ib ne1 sc b X m A1 P S Kk Si Bi Pi) as (be' & E' & K).
    rewrite E in E'. injection E' as <-. destruct K as (m' & E1 & H1 & C1); auto.
    exists m'. split; [|split; [|exact C1]].
    - unfold fftm_in_place. rewrite leqb_refl. destruct Pk as [Pk|Pk]; rewrite Pk; exact E1.
    - intros h Hh w Hw. destruct (ixs1 _ _ Hw) as (j & -> & Hj). cbn [nth].
      rewrite (H1 (line axis j h) (ixs_line axis _ k h j Hh Hj)). destruct (line_nth axis j h A1) as (-> & ->). reflexivity.
  Qed.

  (** ** Refusals *)
  Lemma leqb_eq a b : leqb a b = true -> a = b.
  Proof. unfold leqb. destruct (list_eq_dec Nat.eq_dec a b); [auto|discriminate]. Qed.
  Lemma kind_of k inv A dims number be : fft_create ssz AL k inv A dims number = Some be -> be_kind be = k.
  Proof. unfold fft_create. destruct (mk_planner _ _ _ _ _ _ _ _); [|discriminate]. intros E. injection E as <-. reflexivity. Qed.
  Lemma kind_of_m k inv A r c number be : fftm_create ssz AL k inv A r c number = Some be -> be_kind be = k.
  Proof. unfold fftm_create. destruct (mk_planner _ _ _ _ _ _ _ _); [|discriminate]. intros E. injection E as <-. reflexivity. Qed.
  Lemma C71_refused_lemma k inv A dims number be ib ob ne1 sc bi bo m :
    1 <= length dims <= 3 -> A < length dims -> fft_create ssz AL k inv A dims number = Some be ->
    b_size bi <> match k with C2R => half_at A dims | _ => dims end \/ b_size bo <> match k with R2C => half_at A dims | _ => dims end ->
    fft_by_reference ssz R exec be A dims ib ob ne1 sc bi bo m = None /\
    (b_size bi <> dims -> fft_in_place ssz R exec be dims ib ne1 sc bi m = None).
  Proof.
    intros L A1 E H. unfold fft_by_reference, fft_in_place. rewrite (kind_of _ _ _ _ _ _ E), (halve_half _ _ L A1). split.
    - destruct (leqb (b_size bi) _) eqn:E1; [|reflexivity]. destruct (leqb (b_size bo) _) eqn:E2; [|reflexivity].
      apply leqb_eq in E1, E2. destruct k, H; contradiction.
    - intros H'. rewrite (leqb_neq _ _ H'). reflexivity.
  Qed.
  Lemma C71_many_refused_lemma k inv axis rows cols number be ib ob ne1 sc gi go bi bo m :
    axis < 2 -> fftm_create ssz AL k inv axis rows cols number = Some be ->
    (forall par, gi <> match k with C2R => half_at axis [rows; cols] | _ => [rows; cols] end \/ go <> match k with R2C => half_at axis [rows; cols] | _ => [rows; cols] end ->
       fftm_by_reference ssz R exec be axis [rows; cols] ib ob ne1 sc gi go par bi bo m = None) /\
    (forall si so di do, si <> 1 \/ so <> 1 \/ di <> do ->
       fftm_by_reference ssz R exec be axis [rows; cols] ib ob ne1 sc gi go (Some ((si, so), (di, do))) bi bo m = None) /\
    (forall par, gi <> [rows; cols] \/ (exists s, par = Some s /\ s <> 1) ->
       fftm_in_place ssz R exec be [rows; cols] ib ne1 sc gi par bi m = None).
  Proof.
    intros A1 E. unfold fftm_by_reference, fftm_in_place. rewrite (kind_of_m _ _ _ _ _ _ _ E), (half_line _ _ _ A1). split; [|split].
    - intros par H. destruct (leqb gi _) eqn:E1; [|reflexivity]. destruct (leqb go _) eqn:E2; [|reflexivity].
      apply leqb_eq in E1, E2. destruct k, H; contradiction.
    - intros si so di do H. destruct (leqb gi _); [|reflexivity]. destruct (leqb go _); [|reflexivity].
      replace (par_ok (Some ((si, so), (di, do)))) with false; [reflexivity|]. symmetry. cbn.
      destruct (Nat.eqb_spec si 1); [|reflexivity]. destruct (Nat.eqb_spec so 1); [|reflexivity].
      destruct (list_eq_dec pair_dec di do); [|reflexivity]. destruct H as [H|[H|H]]; contradiction.
    - intros par [H|(s & -> & H)]; [rewrite (leqb_neq _ _ H); reflexivity|]. destruct (leqb gi _); [|reflexivity].
      destruct (Nat.eqb_spec s 1); [contradiction|reflexivity].
  Qed.

  Lemma C71_distributed_real_refuted_lemma k inv axis rows cols number kk be ib ob ne1 sc gi go si so di do bi bo m :
    axis < 2 -> k <> C2C -> fftm_create ssz AL k inv axis rows cols number = Some be ->
    let n := nth axis [rows; cols] 0 in 3 <= n ->
    map snd di = line axis (match k with C2R => n / 2 + 1 | _ => n end) kk ->
    map snd do = line axis (match k with R2C => n / 2 + 1 | _ => n end) kk ->
    fftm_by_reference ssz R exec be axis [rows; cols] ib ob ne1 sc gi go (Some ((si, so), (di, do))) bi bo m = None.
  Proof.
    intros A1 K E n N Di Do. apply (C71_many_refused_lemma k inv axis rows cols number be); [exact A1|exact E|]. right. right. intros X. subst do.
    rewrite Di in Do. apply line_inj in Do. assert (n / 2 + 1 < n) by (pose proof (Nat.div_mod_eq n 2); pose proof (Nat.mod_upper_bound n 2); lia).
    destruct Do as (Do & _). destruct k; [contradiction|lia|lia].
  Qed.
End Main.

Lemma guru_flags k ds sg same fl p : plan_guru k ds sg same fl = Some p -> pl_flags p = fl.
Proof.
  unfold plan_guru. intros E. destruct (forallb _ _); [|discriminate E]. destruct (negb _); [|discriminate E]. injection E as <-. reflexivity.
Qed.
Lemma planner_flags ssz AL k e A fl dom mult pl : mk_planner ssz AL k e A fl dom mult = Some pl -> pl_flags (op_plan pl) = fl.
Proof.
  intros E. unfold mk_planner in E. destruct k; cbv zeta in E;
  repeat (match type of E with bind ?o _ = _ => destruct o eqn:?; [cbn [bind] in E|discriminate E] end);
  injection E as <-; cbn [op_plan]; eapply guru_flags; eassumption.
Qed.
Lemma rigor_is number : (0 <= number < 4294967296)%Z ->
  rigor number = if ((number =? 0) || (31 <? number))%Z then PATIENT else if (11 <? number)%Z then MEASURE else ESTIMATE.
Proof.
  intros N. unfold rigor. change (2 ^ 32)%Z with 4294967296%Z. destruct (Z.eqb_spec number 0) as [->|H]; [reflexivity|].
  rewrite Z.mod_small by lia. cbn [orb].
  destruct (Z.ltb_spec 30 (number - 1)), (Z.ltb_spec 31 number), (Z.ltb_spec 10 (number - 1)), (Z.ltb_spec 11 number); try lia; reflexivity.
Qed.
Lemma C71_rigor_lemma ssz AL k inv A dims number be :
  (0 <= number < 4294967296)%Z ->
  fft_create ssz AL k inv A dims number = Some be \/ fftm_create ssz AL k inv A (nth 0 dims 0) (nth 1 dims 0) number = Some be ->
  f_rigor (pl_flags (op_plan (be_planner be))) =
    if ((number =? 0) || (31 <? number))%Z then PATIENT else if (11 <? number)%Z then MEASURE else ESTIMATE.
Proof.
  intros N E. rewrite <- (rigor_is number N). destruct E as [E|E].
  - unfold fft_create in E. destruct (mk_planner _ _ _ _ _ _ _ _) as [pl|] eqn:E1; [|discriminate]. injection E as <-. cbn [be_planner].
    rewrite (planner_flags _ _ _ _ _ _ _ _ _ E1). destruct (length dims =? 1); reflexivity.
  - unfold fftm_create in E. destruct (mk_planner _ _ _ _ _ _ _ _) as [pl|] eqn:E1; [|discriminate]. injection E as <-. cbn [be_planner].
    rewrite (planner_flags _ _ _ _ _ _ _ _ _ E1). reflexivity.
Qed.

(** ** Lengths that do not fit an int *)
Definition long_mem : st Zring :=
  St Zring (fun _ => None) (fun a => Some (if (a <? 8589934592)%Z then (0, 0)%Z else (1, 0)%Z)) (fun _ => None).
Definition long_be : backend :=
  Eval vm_compute in
  (let fl := Flags ESTIMATE true false in
   let pl b := Plan C2C [Dim 4 1 1] (-1) b fl in
   Backend C2C (Planner (pl false) (Some (pl true)) 4294967300 4294967300) (rtl 32 fl [0]) false None).
Lemma long_create n : Z.of_nat n = 4294967300%Z -> fft_create 8 32 C2C false 0 [n] 1 = Some long_be.
Proof.
  intros E. unfold fft_create, make_flags1, mk_planner, plan_layout, buffer_size, plan_layout, fill_dims, zs. cbn [length Nat.eqb nth map Nat.ltb Nat.leb].
  rewrite E. vm_compute. reflexivity.
Qed.
Definition long_in (n : nat) : blk := Blk (Inter 0) [0] [n] [1%Z] true.
Definition long_out (n : nat) : blk := Blk (Inter 8589934592) [0] [n] [1%Z] true.
Lemma long_open n p : (p = 0 \/ p = 8589934592)%Z -> forall q,
  rt_open 8 (Blk (Inter p) [0] [n] [1%Z] true) (be_layout long_be) false q = Some (Access (Inter p) [1%Z] None).
Proof. intros H q. unfold rt_open, rt_compatible. destruct H as [H|H]; rewrite H; reflexivity. Qed.
Lemma ats1 j : ats [1%Z] [j] = Z.of_nat j. Proof. cbn. lia. Qed.
Lemma cc_inj a b : CCell a = CCell b -> a = b.
Proof. intros H. injection H. auto. Qed.
Lemma long_memory n : Z.of_nat n = 4294967300%Z ->
  memory Zring 8 long_mem (long_in n) (long_out n) (Inter 17179869184) 4294967300 (Inter 34359738368) 4294967300.
Proof.
  intros E.
  assert (W : forall p i, writable Zring long_mem (Inter p) i).
  { intros p i. split; [repeat constructor; intros []|discriminate]. }
  assert (In0 : forall p i c, ixs [n] i -> In c (cells (Inter p) (ats [1%Z] i)) -> exists j, i = [j] /\ (0 <= Z.of_nat j < 4294967300)%Z /\ c = CCell (p + Z.of_nat j)).
  { intros p i c I C. destruct (ixs1 _ _ I) as (j & -> & J). rewrite ats1 in C. exists j. split; [reflexivity|]. split; [lia|].
    destruct C as [C|[]]. auto. }
  assert (El : forall p c, elements (Blk (Inter p) [0] [n] [1%Z] true) c -> exists z, (0 <= z < 4294967300)%Z /\ c = CCell (p + z)).
  { intros p c (i & I & C). destruct (In0 _ _ _ I C) as (j & _ & J & Ec). exists (Z.of_nat j). split; auto. }
  assert (Sl : forall p c, storage (Inter p) 4294967300 c -> exists z, (0 <= z < 4294967300)%Z /\ c = CCell (p + z)).
  { intros p c (i & I & C). exists i. split; [exact I|]. destruct C as [C|[]]. auto. }
  unfold memory. split; [intros i I; apply W|]. split.
  { intros i i' I I' N c C C'. apply (In0 8589934592%Z) in C; [|exact I]. apply (In0 8589934592%Z) in C'; [|exact I'].
    destruct C as (j & -> & _ & Ec). destruct C' as (j' & -> & _ & Ec'). subst c. apply cc_inj in Ec'. apply N. f_equal. lia. }
  split; [split; [reflexivity|intros i I; apply W]|]. split; [split; [reflexivity|intros i I; apply W]|].
  unfold long_in, long_out, separate.
  repeat split; intros c C C';
    (first [apply El in C|apply Sl in C]); (first [apply El in C'|apply Sl in C']);
    destruct C as (z & Hz & Ec); destruct C' as (z' & Hz' & Ec'); subst c; apply cc_inj in Ec'; lia.
Qed.
Lemma C71_long_refuted_lemma t va exec : config 8 32 va -> documented Zring t 8 va exec ->
  exists n be bi bo ib ob m m', Z.of_nat n = 4294967300%Z /\
    fft_create 8 32 C2C false 0 [n] 1 = Some be /\ sized bi [n] /\ sized bo [n] /\
    cpx_ptr (b_ptr bi) /\ cpx_ptr (b_ptr bo) /\ array_of_complex ib /\ array_of_complex ob /\
    memory Zring 8 m bi bo ib (in_cells (be_planner be)) ob (out_cells (be_planner be)) /\
    holds Zring m (ixs [n]) (b_ptr bi) (ats (b_stride bi)) (fun _ => 0%cr) /\
    fft_by_reference 8 Zring exec be 0 [n] ib ob false 1%cr bi bo m = Some m' /\
    get Zring m' (b_ptr bo) (ats (b_stride bo) [5]) = Some 1%cr /\ DFTs Zring t (-1) [n] (fun _ => 0%cr) [5] = 0%cr.
Proof.
  intros Cf Doc. pose proof (Z2Nat.id 4294967300 ltac:(lia)) as E. set (n := Z.to_nat 4294967300) in E. clearbody n.
  assert (X : exists m', fft_by_reference 8 Zring exec long_be 0 [n] (Inter 17179869184) (Inter 34359738368) false 1%cr (long_in n) (long_out n) long_mem = Some m' /\
    get Zring m' (Inter 8589934592) 5 = Some 1%cr).
  { unfold fft_by_reference. cbn [be_kind long_be b_size long_in long_out]. rewrite !leqb_refl.
    unfold ws_out_of_place, long_in, long_out. rewrite !long_open by auto. cbn [bind copy_in ac_copy ac_ptr ac_stride be_kind long_be b_size].
    cbn [be_out_of_place be_axis long_be be_planner op_plan].
    set (pl := Plan _ _ _ _ _). 
    destruct (Doc pl (Inter 0) (Inter 8589934592) (fun _ => 0%cr) long_mem) as (m' & E1 & _ & (C1 & _)).
    - repeat constructor.
    - exact I.
    - exact I.
    - intros i i' I I' c C C'. change (pl_in pl) with [4] in I. change (pl_out pl) with [4] in I'. destruct (ixs1 _ _ I) as (j & -> & J). destruct (ixs1 _ _ I') as (j' & -> & J').
      change (pl_is pl) with [1%Z] in C'. change (pl_os pl) with [1%Z] in C. rewrite ats1 in *. destruct C as [C|[]]. destruct C' as [C'|[]]. subst c.
      apply cc_inj in C'. lia.
    - intros _. split; [reflexivity|]. destruct Cf as (_ & _ & V & _ & _ & V2). cbn [address].
      apply Z.mod_divide in V2; [|lia]. destruct V2 as (q & V2). apply Z.mod_divide; [lia|]. exists (q * 4294967296)%Z. lia.
    - intros i i' I I' N c C C'. destruct (ixs1 _ _ I) as (j & -> & J). destruct (ixs1 _ _ I') as (j' & -> & J').
      change (pl_os pl) with [1%Z] in C, C'. rewrite ats1 in *. destruct C as [C|[]]. destruct C' as [C'|[]]. subst c.
      apply cc_inj in C'. apply N. f_equal. lia.
    - exact I.
    - intros i I. change (pl_in pl) with [4] in I. destruct (ixs1 _ _ I) as (j & -> & J). change (pl_is pl) with [1%Z]. rewrite ats1. cbn [get long_mem cm]; unfold mload.
      destruct (Z.ltb_spec (0 + Z.of_nat j) 8589934592); [reflexivity|lia].
    - discriminate.
    - intros i I. split; [repeat constructor; intros []|discriminate].
    - rewrite E1. cbn [bind copy_out ac_copy scale_blk]. exists m'. split; [reflexivity|]. cbn [get].
      assert (Q : rd Zring m' (CCell (8589934592 + 5)) = rd Zring long_mem (CCell (8589934592 + 5))).
      { apply C1. intros [(i & I & C)|(K & _)]; [|discriminate K].
        change (pl_out pl) with [4] in I. destruct (ixs1 _ _ I) as (j & -> & J). change (pl_os pl) with [1%Z] in C. rewrite ats1 in C.
        destruct C as [C|[]]. apply cc_inj in C. lia. }
      cbn [rd] in Q. injection Q as Q. exact Q. }
  destruct X as (m' & X1 & X2).
  exists n, long_be, (long_in n), (long_out n), (Inter 17179869184), (Inter 34359738368), long_mem, m'.
  split; [exact E|]. split; [apply long_create, E|]. split; [split; reflexivity|]. split; [split; reflexivity|].
  do 4 (split; [exact I|]). split; [apply long_memory, E|]. split.
  - intros i J. destruct (ixs1 _ _ J) as (j & -> & Hj). cbn [b_stride b_ptr long_in]. rewrite ats1. cbn [get long_mem cm]; unfold mload.
    destruct (Z.ltb_spec (0 + Z.of_nat j) 8589934592); [reflexivity|lia].
  - split; [exact X1|]. split; [exact X2|]. apply DFTs_zero.
Qed.
