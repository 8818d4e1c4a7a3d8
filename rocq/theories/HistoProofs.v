(** Proofs about the histogram. *)
From Coq Require Import ZArith QArith Qround List Lia Bool Arith Lqa.
From Coq Require Import SpecFloat.
From Verif Require Import Base Histo.
Import ListNotations.
Local Open Scope nat_scope.

Lemma Qltb_lt x y : Qlt_bool x y = true <-> (x < y)%Q.
Proof.
  unfold Qlt_bool. rewrite negb_true_iff. split; intros H.
  - apply Qnot_le_lt. intros L. apply Qle_bool_iff in L. congruence.
  - destruct (Qle_bool y x) eqn:E; [|reflexivity]. apply Qle_bool_iff in E. lra.
Qed.
Lemma Qltb_ge x y : Qlt_bool x y = false <-> (y <= x)%Q.
Proof. unfold Qlt_bool. rewrite negb_false_iff. apply Qle_bool_iff. Qed.
Lemma injZ_le x y : (x <= y)%Z -> (inject_Z x <= inject_Z y)%Q.
Proof. intros H. rewrite <- Zle_Qle. exact H. Qed.

Lemma filter_length_le {X} (f : X -> bool) l : length (filter f l) <= length l.
Proof. induction l as [|x l IH]; cbn; [lia|]. destruct (f x); cbn; lia. Qed.

(** * The bins *)
Section Bins.
Variables (mn mx : Q) (num : nat).
Hypothesis H3 : 3 <= num.
Hypothesis Hlt : (mn < mx)%Q.
Definition width : Q := ((mx - mn) / inject_Z (Z.of_nat (num - 2)))%Q.
Lemma len_pos : (0 < inject_Z (Z.of_nat (num - 2)))%Q.
Proof. change 0%Q with (inject_Z 0). rewrite <- Zlt_Qlt. lia. Qed.
Lemma width_pos : (0 < width)%Q.
Proof. unfold width. apply Qlt_shift_div_l; [exact len_pos|]. lra. Qed.
Lemma width_total : (inject_Z (Z.of_nat (num - 2)) * width == mx - mn)%Q.
Proof. unfold width. apply Qmult_div_r. pose proof len_pos. lra. Qed.
Lemma edge_eq k : (edge mn mx num k == mn + inject_Z (Z.of_nat k) * width)%Q.
Proof. reflexivity. Qed.
Lemma edge_mono j k : j <= k -> (edge mn mx num j <= edge mn mx num k)%Q.
Proof. intros H. rewrite !edge_eq. pose proof width_pos. assert (inject_Z (Z.of_nat j) <= inject_Z (Z.of_nat k))%Q by (apply injZ_le; lia). nra. Qed.
Lemma in_bin_unique v n n' : n < num -> n' < num -> in_bin mn mx num n v = true -> in_bin mn mx num n' v = true -> n = n'.
Proof.
  assert (X : forall n n', n < n' -> n' < num -> in_bin mn mx num n v = true -> in_bin mn mx num n' v = true -> False).
  { clear n n'. intros n n' L L' H H'. unfold in_bin in H, H'. destruct (Nat.eqb_spec n' 0); [lia|].
    destruct (Nat.eqb_spec n 0) as [->|].
    - rewrite Qltb_lt in H. destruct (Nat.eqb_spec n' (num - 1)).
      + rewrite Qle_bool_iff in H'. lra.
      + rewrite !andb_true_iff, !Qle_bool_iff, !Qltb_lt in H'. lra.
    - destruct (Nat.eqb_spec n (num - 1)); [lia|]. rewrite !andb_true_iff, !Qle_bool_iff, !Qltb_lt in H. destruct (Nat.eqb_spec n' (num - 1)).
      + rewrite Qle_bool_iff in H'. lra.
      + rewrite !andb_true_iff, !Qle_bool_iff, !Qltb_lt in H'. pose proof (edge_mono n (n' - 1) ltac:(lia)). lra. }
  intros Hn Hn' H H'. destruct (Nat.lt_trichotomy n n') as [L | [E | L]]; [|exact E|]; exfalso; eauto.
Qed.
Lemma below v : (v < mn)%Q -> in_bin mn mx num 0 v = true.
Proof. intros H. unfold in_bin. cbn. apply Qltb_lt. exact H. Qed.
Lemma above v : (mx <= v)%Q -> in_bin mn mx num (num - 1) v = true.
Proof. intros H. unfold in_bin. destruct (Nat.eqb_spec (num - 1) 0); [lia|]. rewrite Nat.eqb_refl. apply Qle_bool_iff. exact H. Qed.
Lemma inside v (z : Z) : (mn <= v)%Q -> (v < mx)%Q -> (inject_Z (z - 1) * width <= v - mn)%Q -> (v - mn < inject_Z z * width)%Q ->
  (1 <= z < Z.of_nat (num - 1))%Z /\ in_bin mn mx num (Z.to_nat z) v = true.
Proof.
  intros H1 H2 L U. pose proof width_pos as W. pose proof width_total as WT.
  assert (Z1 : (0 < z)%Z). { rewrite Zlt_Qlt. apply Qnot_le_lt. intros N. change (inject_Z 0) with 0%Q in N. nra. }
  assert (Z2 : (z - 1 < Z.of_nat (num - 2))%Z).
  { rewrite Zlt_Qlt. apply Qnot_le_lt. intros N. assert (inject_Z (Z.of_nat (num - 2)) * width <= inject_Z (z - 1) * width)%Q by (apply Qmult_le_compat_r; lra). lra. }
  assert (B : (1 <= z < Z.of_nat (num - 1))%Z) by lia. split; [exact B|]. unfold in_bin.
  destruct (Nat.eqb_spec (Z.to_nat z) 0); [lia|]. destruct (Nat.eqb_spec (Z.to_nat z) (num - 1)); [lia|].
  rewrite !andb_true_iff, !Qle_bool_iff, !Qltb_lt, !edge_eq. rewrite Nat2Z.inj_sub, Z2Nat.id by lia. repeat split; try assumption; [change (z - Z.of_nat 1)%Z with (z - 1)%Z|]; lra.
Qed.
End Bins.

(** * Counting *)
Section Count.
Context {A : sample_type}.
Variables (mn mx delta : A) (num : nat).
Definition puts (n : nat) (l : list A) (b : A -> nat) : Z := Z.of_nat (length (filter (fun v => b v =? n) l)).
Lemma puts_snoc n l v b : puts n (l ++ [v]) b = (puts n l b + if (b v =? n)%nat then 1 else 0)%Z.
Proof. unfold puts. rewrite filter_app, app_length. cbn [filter]. destruct (Nat.eqb _ _); cbn [length]; lia. Qed.
Lemma puts_app n l l' b : puts n (l ++ l') b = (puts n l b + puts n l' b)%Z.
Proof. unfold puts. rewrite filter_app, app_length. lia. Qed.
Lemma puts_le n l b : (0 <= puts n l b <= Z.of_nat (length l))%Z.
Proof. unfold puts. pose proof (filter_length_le (fun v => b v =? n) l). lia. Qed.

Definition step (v : A) (hist : list Z) : option (list Z) := n <- hist_bin A mn mx delta num v ;; bump hist n.
Definition grown (hist hist' : list Z) (l : list A) b : Prop := length hist' = length hist /\ forall n, n < num -> nth n hist' 0%Z = (nth n hist 0 + puts n l b)%Z.
Lemma step_ok hist hist' l b v : length hist = num -> grown hist hist' l b ->
  hist_bin A mn mx delta num v = Some (Z.of_nat (b v)) -> b v < num ->
  (forall n, n < num -> (0 <= nth n hist 0 /\ nth n hist 0 + Z.of_nat (length l) + 1 < 2 ^ 31)%Z) ->
  exists hist'', step v hist' = Some hist'' /\ grown hist hist'' (l ++ [v]) b.
Proof.
  intros L [L' G] Hb Hn Hr. unfold step. rewrite Hb. cbn [bind]. unfold bump. rewrite (proj2 (Z.leb_le _ _)) by lia. rewrite Nat2Z.id.
  unfold bget. rewrite (nth_error_nth' hist' 0%Z) by lia. cbn [bind]. unfold checked, fits32. pose proof (G _ Hn) as Gn. pose proof (Hr _ Hn). pose proof (puts_le (b v) l b).
  rewrite (proj2 (Z.leb_le _ _)), (proj2 (Z.ltb_lt _ _)) by lia. cbn [andb bind]. rewrite bput_some by lia. eexists. split; [reflexivity|]. split; [rewrite lset_length; exact L'|].
  intros n Hn'. rewrite puts_snoc.
  assert (X : nth n (lset hist' (b v) (nth (b v) hist' 0 + 1)%Z) 0%Z = if n =? b v then (nth (b v) hist' 0 + 1)%Z else nth n hist' 0%Z).
  { apply nth_error_nth. rewrite lset_nth. destruct (Nat.eqb_spec n (b v)); [rewrite (proj2 (Nat.ltb_lt _ _)) by lia; reflexivity|apply nth_error_nth'; lia]. }
  rewrite X. destruct (Nat.eqb_spec n (b v)) as [->|].
  - rewrite Nat.eqb_refl, Gn. lia.
  - destruct (Nat.eqb_spec (b v) n); [lia|]. rewrite G by exact Hn'. lia.
Qed.
Definition bin_at b (v : A) := hist_bin A mn mx delta num v = Some (Z.of_nat (b v)) /\ b v < num.
Lemma split_snoc {X} i : forall (l : list X) y, nth_error l i = Some y -> firstn (i + 1) l = firstn i l ++ [y].
Proof. induction i as [|m IH]; intros [|z l] y E; try discriminate; cbn in *; [injection E as <-; reflexivity|]. rewrite (IH l y E). reflexivity. Qed.

Lemma run1 hist h0 l0 xs b : length hist = num -> Forall (bin_at b) xs -> grown hist h0 l0 b ->
  (forall n, n < num -> (0 <= nth n hist 0 /\ nth n hist 0 + Z.of_nat (length l0) + Z.of_nat (length xs) < 2 ^ 31)%Z) ->
  exists h1, loop (fun i h => v <- bget xs i ;; step v h) 0 (length xs) h0 = Some h1 /\ grown hist h1 (l0 ++ xs) b.
Proof.
  intros L F G Hr.
  destruct (loop_inv (fun i h => v <- bget xs i ;; step v h) (fun i h => grown hist h (l0 ++ firstn i xs) b) (length xs) 0 h0) as (h1 & E & P).
  - cbn [firstn]. rewrite app_nil_r. exact G.
  - intros i h Hi Gi. cbn [Nat.add] in Hi. unfold bget. destruct (nth_error xs i) as [v|] eqn:Ev; [|apply nth_error_None in Ev; lia]. cbn [bind].
    rewrite Forall_forall in F. destruct (F v (nth_error_In _ _ Ev)) as [B1 B2].
    rewrite (split_snoc i xs v Ev), app_assoc. apply (step_ok hist h _ b v L Gi B1 B2). intros n Hn. destruct (Hr n Hn). rewrite app_length, firstn_length. lia.
  - cbn [Nat.add] in P. rewrite firstn_all in P. exists h1. auto.
Qed.
Lemma run2 hist rows c b : length hist = num -> Forall (bin_at b) (concat rows) -> Forall (fun r => length r = c) rows ->
  (forall n, n < num -> (0 <= nth n hist 0 /\ nth n hist 0 + Z.of_nat (length (concat rows)) < 2 ^ 31)%Z) ->
  exists h1, loop (fun i h => loop (fun j h => r <- bget rows i ;; v <- bget r j ;; step v h) 0 c h) 0 (length rows) hist = Some h1 /\ grown hist h1 (concat rows) b.
Proof.
  intros L F Fc Hr.
  destruct (loop_inv (fun i h => loop (fun j h => r <- bget rows i ;; v <- bget r j ;; step v h) 0 c h) (fun i h => grown hist h (concat (firstn i rows)) b) (length rows) 0 hist) as (h1 & E & P).
  - split; [reflexivity|]. intros n Hn. cbn. lia.
  - intros i h Hi Gi. cbn [Nat.add] in Hi. destruct (nth_error rows i) as [r|] eqn:Er; [|apply nth_error_None in Er; lia].
    assert (Ir : In r rows) by (apply (nth_error_In _ _ Er)). assert (Lr : length r = c) by (rewrite Forall_forall in Fc; auto).
    assert (Split : exists s, rows = firstn i rows ++ r :: s).
    { exists (skipn (i + 1) rows). clear - Er. revert i Er. induction rows as [|z rows IH]; intros [|i] E; try discriminate; cbn in *; [injection E as <-; reflexivity|]. f_equal. apply IH. exact E. }
    destruct Split as [s Es].
    destruct (run1 hist h (concat (firstn i rows)) r b L) as (h1 & E1 & G1); auto.
    + rewrite Es, concat_app in F. apply Forall_app in F as [_ F]. cbn [concat] in F. apply Forall_app in F as [F _]. exact F.
    + intros n Hn. destruct (Hr n Hn) as [R1 R2]. rewrite Es, concat_app in R2. cbn [concat] in R2. rewrite !app_length in R2. lia.
    + exists h1. split.
      * rewrite <- E1, Lr. apply loop_ext. intros j h' Hj. unfold bget at 1. rewrite Er. reflexivity.
      * rewrite (split_snoc i rows r Er), concat_app. cbn [concat]. rewrite app_nil_r. exact G1.
  - cbn [Nat.add] in P. rewrite firstn_all in P. exists h1. auto.
Qed.
End Count.

(** * Whole histories, for any sample type whose bins are right *)
Section Calls.
Context {A : sample_type} (val : A -> Q) (valid : A -> Prop).
Variables (mn mx : A) (num : nat).
Hypothesis H3 : 3 <= num.
Hypothesis Hlt : (val mn < val mx)%Q.
Hypothesis Hbin : exists d delta, sub A mx mn = Some d /\ divl A d (num - 2) = Some delta /\
  forall v, valid v -> exists n, hist_bin A mn mx delta num v = Some (Z.of_nat n) /\ n < num /\ in_bin (val mn) (val mx) num n (val v) = true.

(** The spec's own bin number. *)
Definition bin_number (v : Q) : nat := match find (fun n => in_bin (val mn) (val mx) num n v) (seq 0 num) with Some n => n | None => 0 end.
Lemma bin_number_ok v n : n < num -> in_bin (val mn) (val mx) num n v = true -> bin_number v = n.
Proof.
  intros Hn E. unfold bin_number. destruct (find _ _) as [k|] eqn:Ef.
  - apply find_some in Ef as [Ik Ek]. apply in_seq in Ik. apply (in_bin_unique (val mn) (val mx) num H3 Hlt v); auto; lia.
  - pose proof (find_none _ _ Ef n) as N. rewrite N in E; [discriminate|]. apply in_seq. lia.
Qed.
Lemma counts_eq n l : n < num -> Forall valid l -> puts n l (fun v => bin_number (val v)) = count (val mn) (val mx) num n (map val l).
Proof.
  destruct Hbin as (d & delta & _ & _ & Hb). intros Hn F. unfold puts, count. f_equal. induction F as [|v l Hv F IH]; [reflexivity|]. cbn [map filter].
  destruct (Hb v Hv) as (k & _ & Hk & Ek). rewrite (bin_number_ok (val v) k Hk Ek).
  destruct (in_bin (val mn) (val mx) num n (val v)) eqn:En.
  - rewrite (in_bin_unique (val mn) (val mx) num H3 Hlt (val v) k n Hk Hn Ek En), Nat.eqb_refl. cbn [length]. lia.
  - destruct (Nat.eqb_spec k n); [congruence|]. exact IH.
Qed.
Definition holds (h : histogram A) (base : list Z) (l : list A) : Prop :=
  min_ A h = mn /\ max_ A h = mx /\ length (hist_ h) = num /\ forall n, n < num -> nth n (hist_ h) 0%Z = (nth n base 0 + count (val mn) (val mx) num n (map val l))%Z.

Lemma nth_zeros {X} (l : list X) n : nth n (map (fun _ => 0%Z) l) 0%Z = 0%Z.
Proof. revert n. induction l as [|x l IH]; intros [|n]; cbn; auto. Qed.
Lemma count_app n l l' : count (val mn) (val mx) num n (l ++ l') = (count (val mn) (val mx) num n l + count (val mn) (val mx) num n l')%Z.
Proof. unfold count. rewrite filter_app, app_length. lia. Qed.
Lemma count_le n l : (0 <= count (val mn) (val mx) num n l <= Z.of_nat (length l))%Z.
Proof. unfold count. pose proof (filter_length_le (in_bin (val mn) (val mx) num n) l). lia. Qed.

Lemma call_ok h base l acc x : holds h base l -> Forall valid (all_samples A x) -> shape_ok A x ->
  (forall n, n < num -> (0 <= nth n base 0 /\ nth n base 0 + Z.of_nat (length l) + Z.of_nat (length (all_samples A x)) < 2 ^ 31)%Z) ->
  exists h', call A h acc x = Some h' /\ holds h' (if acc then base else []) ((if acc then l else []) ++ all_samples A x).
Proof.
  intros (E1 & E2 & L & C) F Sh Hr. destruct Hbin as (d & delta & Ed & Edl & Hb). unfold call.
  set (h0 := if acc then hist_ h else map (fun _ => 0%Z) (hist_ h)).
  assert (L0 : length h0 = num) by (unfold h0; destruct acc; rewrite ?map_length; exact L).
  assert (C0 : forall n, n < num -> nth n h0 0%Z = (nth n (if acc then base else []) 0 + count (val mn) (val mx) num n (map val (if acc then l else [])))%Z).
  { intros n Hn. unfold h0. destruct acc; [apply C; exact Hn|]. rewrite nth_zeros. destruct n; reflexivity. }
  assert (R0 : forall n, n < num -> (0 <= nth n h0 0 /\ nth n h0 0 + Z.of_nat (length (all_samples A x)) < 2 ^ 31)%Z).
  { intros n Hn. rewrite C0 by exact Hn. pose proof (Hr n Hn). pose proof (count_le n (map val (if acc then l else []))) as Cl. rewrite map_length in Cl.
    assert (nth n (@nil Z) 0%Z = 0%Z) by (destruct n; reflexivity). destruct acc; cbn [length] in *; lia. }
  assert (Fb : Forall (bin_at mn mx delta num (fun v => bin_number (val v))) (all_samples A x)).
  { eapply Forall_impl; [|exact F]. intros v Hv. destruct (Hb v Hv) as (k & Ek & Hk & Bk). unfold bin_at. rewrite (bin_number_ok _ k Hk Bk). auto. }
  assert (X : exists h1, match x with vec v => accumulate1 A (min_ A h) (max_ A h) h0 v | mat r c => accumulate2 A (min_ A h) (max_ A h) h0 r c end = Some h1 /\
     grown num h0 h1 (all_samples A x) (fun v => bin_number (val v))).
  { rewrite E1, E2. destruct x as [v|r c]; cbn [all_samples] in *.
    - unfold accumulate1. rewrite L0, Ed. cbn [bind]. rewrite Edl. cbn [bind].
      destruct (run1 mn mx delta num h0 h0 [] v _ L0 Fb) as (h1 & E & G); [split; [reflexivity|intros n Hn; cbn; lia]|intros n Hn; cbn [length]; destruct (R0 n Hn); lia|].
      exists h1. split; [exact E|exact G].
    - unfold accumulate2. rewrite L0, Ed. cbn [bind]. rewrite Edl. cbn [bind].
      destruct (run2 mn mx delta num h0 r c _ L0 Fb Sh R0) as (h1 & E & G). exists h1. split; [exact E|exact G]. }
  destruct X as (h1 & -> & L1 & G1). cbn [bind]. eexists. split; [reflexivity|]. unfold holds. cbn [min_ max_ hist_]. split; [exact E1|]. split; [exact E2|]. split; [lia|].
  intros n Hn. rewrite G1, C0, map_app, count_app, counts_eq by assumption. lia.
Qed.
Lemma calls_ok : forall cl h base l, holds h base l -> Forall (fun c => Forall valid (all_samples A (snd c)) /\ shape_ok A (snd c)) cl ->
  (forall n, n < num -> (0 <= nth n base 0 /\ nth n base 0 + Z.of_nat (length l) + Z.of_nat (length (flat_map (fun c => all_samples A (snd c)) cl)) < 2 ^ 31)%Z) ->
  exists h', calls A h cl = Some h' /\ holds h' (if forallb fst cl then base else []) (counted A l cl).
Proof.
  induction cl as [|[acc x] cl IH]; intros h base l Hh F Hr; [exists h; auto|].
  inversion F as [|? ? [F1 F2] F3]; subst. cbn [snd flat_map] in *. rewrite app_length in Hr. cbn [calls].
  destruct (call_ok h base l acc x Hh F1 F2) as (h1 & -> & Hh1); [intros n Hn; pose proof (Hr n Hn); lia|]. cbn [bind].
  destruct (IH h1 _ _ Hh1 F3) as (h2 & -> & Hh2).
  - intros n Hn. pose proof (Hr n Hn). assert (nth n (@nil Z) 0%Z = 0%Z) by (destruct n; reflexivity). rewrite app_length. destruct acc; cbn [length]; lia.
  - exists h2. split; [reflexivity|]. unfold counted in *. cbn [fold_left fst snd forallb] in *. destruct acc; cbn [andb] in *; [exact Hh2|]. destruct (forallb fst cl); exact Hh2.
Qed.
End Calls.

(** * Real samples *)
Lemma reals_bin (mn mx : Q) num : 3 <= num -> (mn < mx)%Q ->
  exists d delta, sub reals mx mn = Some d /\ divl reals d (num - 2) = Some delta /\
  forall v, True -> exists n, hist_bin reals mn mx delta num v = Some (Z.of_nat n) /\ n < num /\ in_bin mn mx num n v = true.
Proof.
  intros H3 Hl. exists (mx - mn)%Q, ((mx - mn) / inject_Z (Z.of_nat (num - 2)))%Q. split; [reflexivity|]. cbn [divl reals]. destruct (Nat.eqb_spec (num - 2) 0); [lia|]. split; [reflexivity|].
  intros v _. fold (width mn mx num). pose proof (width_pos mn mx num H3 Hl) as W. unfold hist_bin. cbn [ltb reals]. fold (Qlt_bool v mn). fold (Qlt_bool v mx).
  destruct (Qlt_bool v mn) eqn:E1.
  - exists 0. rewrite Qltb_lt in E1. split; [reflexivity|]. split; [lia|]. apply below. exact E1.
  - rewrite Qltb_ge in E1. destruct (Qlt_bool v mx) eqn:E2; cbn [negb].
    + rewrite Qltb_lt in E2. cbn [sub divt reals bind index1]. destruct (Qeq_bool (width mn mx num) 0) eqn:E0; [apply Qeq_bool_iff in E0; lra|]. cbn [bind].
      set (q := ((v - mn) / width mn mx num)%Q). assert (Eq : (q * width mn mx num == v - mn)%Q) by (unfold q; rewrite Qmult_comm; apply Qmult_div_r; lra).
      pose proof (Qfloor_le (q + 1)) as F1. pose proof (Qlt_floor (q + 1)) as F2. set (z := Qfloor (q + 1)) in *.
      assert (I1 : (inject_Z (z + 1) == inject_Z z + 1)%Q) by (rewrite inject_Z_plus; reflexivity). rewrite I1 in F2.
      assert (I2 : (inject_Z (z - 1) == inject_Z z - 1)%Q) by (unfold Z.sub; rewrite inject_Z_plus; reflexivity).
      destruct (inside mn mx num H3 Hl v z E1 E2) as [B I].
      * rewrite I2. rewrite <- Eq. apply Qmult_le_compat_r; lra.
      * rewrite <- Eq. apply Qmult_lt_r; lra.
      * exists (Z.to_nat z). rewrite Z2Nat.id by lia. split; [reflexivity|]. split; [lia|exact I].
    + rewrite Qltb_ge in E2. exists (num - 1). split; [f_equal; lia|]. split; [lia|]. apply above; assumption.
Qed.

(** * Integer samples, intervals of equal integral width *)
Lemma u64_small x : (0 <= x < 2 ^ 31)%Z -> u64 x = x.
Proof. intros H. unfold u64. apply Z.mod_small. assert (2 ^ 31 < W64)%Z by reflexivity. lia. Qed.
Lemma ints_bin (mn mx : Z) num : 3 <= num -> (mn < mx)%Z -> (mx - mn < 2 ^ 31)%Z -> ((mx - mn) mod (Z.of_nat num - 2) = 0)%Z ->
  exists d delta, sub ints mx mn = Some d /\ divl ints d (num - 2) = Some delta /\
  forall v, True -> exists n, hist_bin ints mn mx delta num v = Some (Z.of_nat n) /\ n < num /\ in_bin (inject_Z mn) (inject_Z mx) num n (inject_Z v) = true.
Proof.
  intros H3 Hl Hr Hd. exists (mx - mn)%Z, ((mx - mn) / (Z.of_nat num - 2))%Z. cbn [sub divl ints].
  assert (CK : forall x, (0 <= x < 2 ^ 31)%Z -> checked x = Some x). { intros x Hx. unfold checked, fits32. rewrite (proj2 (Z.leb_le _ _)), (proj2 (Z.ltb_lt _ _)) by lia. reflexivity. }
  rewrite CK by lia. split; [reflexivity|]. destruct (Nat.eqb_spec (num - 2) 0); [lia|]. rewrite u64_small by lia. replace (Z.of_nat (num - 2)) with (Z.of_nat num - 2)%Z by lia. split; [reflexivity|].
  intros v _. set (L := (Z.of_nat num - 2)%Z) in *. assert (HL : (0 < L)%Z) by (unfold L; lia). set (k := ((mx - mn) / L)%Z).
  assert (Ek : (mx - mn = L * k)%Z) by (unfold k; rewrite (Z.div_mod (mx - mn) L) at 1 by lia; lia).
  assert (Hk : (0 < k)%Z) by nia. assert (QL : (inject_Z mn < inject_Z mx)%Q) by (rewrite <- Zlt_Qlt; exact Hl).
  assert (W : (width (inject_Z mn) (inject_Z mx) num == inject_Z k)%Q).
  { unfold width. replace (Z.of_nat (num - 2)) with L by (unfold L; lia).
    assert (Ez : (inject_Z mx - inject_Z mn == inject_Z L * inject_Z k)%Q) by (rewrite <- inject_Z_mult, <- Ek; unfold Z.sub, Qminus; rewrite inject_Z_plus, inject_Z_opp; reflexivity).
    rewrite Ez. rewrite Qmult_comm. apply Qdiv_mult_l. intros Z0. change 0%Q with (inject_Z 0) in Z0. apply (proj1 (inject_Z_injective L 0)) in Z0. lia. }
  unfold hist_bin. cbn [ltb ints]. destruct (Z.ltb_spec v mn).
  - exists 0. split; [reflexivity|]. split; [lia|]. apply below. rewrite <- Zlt_Qlt. assumption.
  - destruct (Z.ltb_spec v mx); cbn [negb].
    + cbn [sub ints bind]. rewrite CK by lia. cbn [bind divt ints]. destruct (Z.eqb_spec k 0); [lia|]. pose proof (Z.quot_div_nonneg (v - mn) k ltac:(lia) Hk) as EQ. rewrite EQ.
      assert (QB : (0 <= (v - mn) / k <= v - mn)%Z) by (split; [apply Z.div_pos; lia|apply Z.div_le_upper_bound; nia]).
      rewrite CK by lia. cbn [bind index1 ints]. set (q := ((v - mn) / k)%Z) in *.
      pose proof (Z.div_mod (v - mn) k ltac:(lia)) as DM. pose proof (Z.mod_pos_bound (v - mn) k Hk) as MB. fold q in DM.
      destruct (inside (inject_Z mn) (inject_Z mx) num H3 QL (inject_Z v) (q + 1)) as [B I].
      * rewrite <- Zle_Qle. assumption.
      * rewrite <- Zlt_Qlt. assumption.
      * rewrite W. replace (q + 1 - 1)%Z with q by lia. rewrite <- inject_Z_mult. unfold Qminus. rewrite <- inject_Z_opp, <- inject_Z_plus, <- Zle_Qle. nia.
      * rewrite W. rewrite <- inject_Z_mult. unfold Qminus. rewrite <- inject_Z_opp, <- inject_Z_plus, <- Zlt_Qlt. nia.
      * exists (Z.to_nat (q + 1)). rewrite Z2Nat.id by lia. assert (q < L)%Z by (unfold L; lia).
        assert (q + 1 < 2 ^ 31)%Z by nia. rewrite CK by lia. cbn [bind]. rewrite u64_small by lia. split; [reflexivity|]. split; [lia|exact I].
    + exists (num - 1). split; [f_equal; lia|]. split; [lia|]. apply above; [assumption|]. rewrite <- Zle_Qle. assumption.
Qed.

Lemma nth_repeat0 k n : nth n (repeat 0%Z k) 0%Z = 0%Z.
Proof. revert n. induction k as [|k IH]; intros [|n]; cbn; auto. Qed.

Theorem reals_ok mn mx num h cl : make_histogram reals mn mx num = Some h -> Forall (fun c => shape_ok reals (snd c)) cl ->
  (Z.of_nat (length (flat_map (fun c => all_samples reals (snd c)) cl)) < 2 ^ 31)%Z ->
  exists h', calls reals h cl = Some h' /\ length (hist_ h') = num /\ forall n, n < num -> nth n (hist_ h') 0%Z = count mn mx num n (counted reals [] cl).
Proof.
  unfold make_histogram. cbn [ltb reals]. fold (Qlt_bool mn mx). destruct (Qlt_bool mn mx) eqn:El; [|discriminate]. rewrite Qltb_lt in El. cbn [bind]. destruct (Nat.leb_spec 3 num) as [H3|]; [|discriminate].
  intros [= <-] F Hr.
  destruct (calls_ok (fun v : reals => v) (fun _ => True) mn mx num H3 El (reals_bin mn mx num H3 El) cl {| min_ := mn : reals; max_ := mx; hist_ := repeat 0%Z num |} (repeat 0%Z num) []) as (h' & E & _ & _ & L & C).
  - unfold holds. cbn [min_ max_ hist_]. rewrite repeat_length. repeat split; auto. intros n Hn. cbn. lia.
  - eapply Forall_impl; [|exact F]. intros c Hc. split; [|exact Hc]. apply Forall_forall. auto.
  - intros n Hn. rewrite nth_repeat0. cbn [length]. lia.
  - exists h'. split; [exact E|]. split; [exact L|]. intros n Hn. rewrite C by exact Hn. rewrite map_id. destruct (forallb fst cl); [rewrite nth_repeat0|destruct n]; reflexivity.
Qed.
Theorem ints_ok mn mx num h cl : make_histogram ints mn mx num = Some h -> (mx - mn < 2 ^ 31)%Z -> ((mx - mn) mod (Z.of_nat num - 2) = 0)%Z ->
  Forall (fun c => shape_ok ints (snd c)) cl ->
  (Z.of_nat (length (flat_map (fun c => all_samples ints (snd c)) cl)) < 2 ^ 31)%Z ->
  exists h', calls ints h cl = Some h' /\ length (hist_ h') = num /\
    forall n, n < num -> nth n (hist_ h') 0%Z = count (inject_Z mn) (inject_Z mx) num n (map inject_Z (counted ints [] cl)).
Proof.
  unfold make_histogram. cbn [ltb ints]. destruct (Z.ltb_spec mn mx) as [El|]; [|discriminate]. cbn [bind]. destruct (Nat.leb_spec 3 num) as [H3|]; [|discriminate].
  intros [= <-] Hw Hd F Hr. assert (QL : (inject_Z mn < inject_Z mx)%Q) by (rewrite <- Zlt_Qlt; exact El).
  destruct (calls_ok (inject_Z : ints -> Q) (fun _ => True) mn mx num H3 QL (ints_bin mn mx num H3 El Hw Hd) cl {| min_ := mn : ints; max_ := mx; hist_ := repeat 0%Z num |} (repeat 0%Z num) []) as (h' & E & _ & _ & L & C).
  - unfold holds. cbn [min_ max_ hist_]. rewrite repeat_length. repeat split; auto. intros n Hn. cbn. lia.
  - eapply Forall_impl; [|exact F]. intros c Hc. split; [|exact Hc]. apply Forall_forall. auto.
  - intros n Hn. rewrite nth_repeat0. cbn [length]. lia.
  - exists h'. split; [exact E|]. split; [exact L|]. intros n Hn. rewrite C by exact Hn. destruct (forallb fst cl); [rewrite nth_repeat0|destruct n]; reflexivity.
Qed.
(** A histogram that continues from given counts. *)
Theorem reals_from mn mx hist h cl : make_histogram_from reals mn mx hist = Some h -> Forall (fun c => fst c = true /\ shape_ok reals (snd c)) cl ->
  Forall (fun x => (0 <= x /\ x + Z.of_nat (length (flat_map (fun c => all_samples reals (snd c)) cl)) < 2 ^ 31)%Z) hist ->
  exists h', calls reals h cl = Some h' /\ length (hist_ h') = length hist /\
    forall n, n < length hist -> nth n (hist_ h') 0%Z = (nth n hist 0 + count mn mx (length hist) n (flat_map (fun c => all_samples reals (snd c)) cl))%Z.
Proof.
  unfold make_histogram_from. cbn [ltb reals]. fold (Qlt_bool mn mx). destruct (Qlt_bool mn mx) eqn:El; [|discriminate]. rewrite Qltb_lt in El. cbn [bind]. destruct (Nat.leb_spec 3 (length hist)) as [H3|]; [|discriminate].
  intros [= <-] F Hr.
  destruct (calls_ok (fun v : reals => v) (fun _ => True) mn mx (length hist) H3 El (reals_bin mn mx _ H3 El) cl {| min_ := mn : reals; max_ := mx; hist_ := hist |} hist []) as (h' & E & _ & _ & L & C).
  - unfold holds. cbn [min_ max_ hist_]. repeat split; auto. intros n Hn. cbn. lia.
  - eapply Forall_impl; [|exact F]. intros c [_ Hc]. split; [|exact Hc]. apply Forall_forall. auto.
  - intros n Hn. rewrite Forall_forall in Hr. pose proof (Hr _ (nth_In hist 0%Z Hn)). cbn [length]. lia.
  - exists h'. split; [exact E|]. split; [exact L|]. intros n Hn. rewrite C by exact Hn. rewrite map_id.
    assert (X : forallb fst cl = true) by (apply forallb_forall; intros c Hc; rewrite Forall_forall in F; apply F; exact Hc). rewrite X. do 2 f_equal.
    clear - F. unfold counted. assert (G : forall s, fold_left (fun s c => (if fst c : bool then s else []) ++ all_samples reals (snd c)) cl s = s ++ flat_map (fun c => all_samples reals (snd c)) cl).
    { induction F as [|[a x] cl [Ha _] F IH]; intros s; cbn; [rewrite app_nil_r; reflexivity|]. cbn in Ha. rewrite Ha, IH, app_assoc. reflexivity. }
    apply (G []).
Qed.

(** Every sample is in exactly one bin. *)
Theorem one_bin mn mx num v : 3 <= num -> (mn < mx)%Q -> exists n, n < num /\ in_bin mn mx num n v = true /\ forall n', n' < num -> in_bin mn mx num n' v = true -> n' = n.
Proof.
  intros H3 Hl. destruct (reals_bin mn mx num H3 Hl) as (d & delta & _ & _ & Hb). destruct (Hb v I) as (n & _ & Hn & E). exists n. split; [exact Hn|]. split; [exact E|].
  intros n' Hn' E'. apply (in_bin_unique mn mx num H3 Hl v); assumption.
Qed.
Lemma count_cons mn mx num n v l : count mn mx num n (v :: l) = (count mn mx num n l + if in_bin mn mx num n v then 1 else 0)%Z.
Proof. unfold count. cbn [filter]. destruct (in_bin mn mx num n v); cbn [length]; lia. Qed.
Theorem total mn mx num l : 3 <= num -> (mn < mx)%Q -> fold_right Z.add 0%Z (map (fun n => count mn mx num n l) (seq 0 num)) = Z.of_nat (length l).
Proof.
  intros H3 Hl. induction l as [|v l IH].
  - unfold count. cbn. induction (seq 0 num) as [|x s IHs]; cbn; [reflexivity|exact IHs].
  - destruct (one_bin mn mx num v H3 Hl) as (n & Hn & En & Un).
    assert (X : forall s, NoDup s -> (forall k, In k s -> k < num) ->
      fold_right Z.add 0%Z (map (fun n => count mn mx num n (v :: l)) s) = (fold_right Z.add 0%Z (map (fun n => count mn mx num n l) s) + if existsb (Nat.eqb n) s then 1 else 0)%Z).
    { induction s as [|k s IHs]; intros ND Hs; [reflexivity|]. inversion ND as [|? ? N1 N2]; subst. cbn [map fold_right existsb]. rewrite IHs by (auto; intros; apply Hs; right; assumption).
      assert (Hk : k < num) by (apply Hs; left; reflexivity). rewrite count_cons.
      destruct (Nat.eqb_spec n k) as [->|Hne].
      - rewrite En. cbn [orb]. assert (existsb (Nat.eqb k) s = false) as ->.
        { apply not_true_iff_false. intros Ex. apply existsb_exists in Ex as (y & Hy & Ey). apply Nat.eqb_eq in Ey. subst. contradiction. }
        lia.
      - destruct (in_bin mn mx num k v) eqn:Ek; [exfalso; apply Hne; symmetry; apply Un; assumption|]. cbn [orb]. lia. }
    rewrite X; [|apply seq_NoDup|intros k Hk; apply in_seq in Hk; lia]. rewrite IH.
    assert (existsb (Nat.eqb n) (seq 0 num) = true) as -> by (apply existsb_exists; exists n; split; [apply in_seq; lia|apply Nat.eqb_refl]). cbn [length]. lia.
Qed.
