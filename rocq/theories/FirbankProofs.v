(** Lemmas about the banks of FIR filters. *)
From Coq Require Import ZArith List Bool Arith Lia Ring.
From Verif Require Import Base Dft DftProofs DftMulti DftInv Fir FirProofs Firbank.
Import ListNotations.
Local Open Scope nat_scope.

Section Bank.
Context {R : CRing} (t : trig R).
Notation C := (Cr R).
Add Ring Cc : (r_th (Cr R)).
Notation W := (sin_cos R t).
Notation DFT := (DFT R t).

Lemma loop_last {X} (f : nat -> X -> option X) (P : X -> Prop) n : 0 < n -> (forall k s, exists s', f k s = Some s' /\ P s') ->
  forall i s, exists s', loop f i n s = Some s' /\ P s'.
Proof.
  intros Hn H. induction n as [|n IH]; [lia|]. intros i s. cbn [loop]. destruct (H i s) as (s1 & E & HP). rewrite E. cbn [bind].
  destruct n as [|n]; [exists s1; split; [reflexivity | exact HP]|]. apply IH. lia.
Qed.
Lemma loop_rows (f : nat -> (nat -> nat -> C) -> option (nat -> nat -> C)) (Q : nat -> (nat -> C) -> Prop) M :
  (forall i out, i < M -> exists r, f i out = Some (set_row out i r) /\ Q i r) ->
  forall out, exists out', loop f 0 M out = Some out' /\ forall i, i < M -> Q i (out' i).
Proof.
  intros H out.
  assert (G : forall m i s, i + m = M -> (forall i', i' < i -> Q i' (s i')) -> exists s', loop f i m s = Some s' /\ forall i', i' < M -> Q i' (s' i')).
  { induction m as [|m IH]; intros i s Hi Hs; cbn [loop]; [exists s; split; [reflexivity | intros i' Hi'; apply Hs; lia]|].
    destruct (H i s) as (r & E & HQ); [lia|]. rewrite E. cbn [bind]. apply IH; [lia|]. intros i' Hi'. unfold set_row.
    destruct (Nat.eqb_spec i' i) as [-> | Ne]; [exact HQ | apply Hs; lia]. }
  apply (G M 0 out); [reflexivity | lia].
Qed.

(** The convolution theorem. *)
Lemma shift_round N (ex : exact R t N) k n w : 0 < N -> k < N ->
  W N (Z.of_nat w * (Z.of_nat n - Z.of_nat k))%Z = W N (Z.of_nat w * Z.of_nat ((n + N - k) mod N))%Z.
Proof.
  intros HN Hk.
  assert (E : n + N - k = N * ((n + N - k) / N) + (n + N - k) mod N) by (apply Nat.div_mod; lia).
  replace (Z.of_nat w * (Z.of_nat n - Z.of_nat k))%Z
    with ((Z.of_nat w * (Z.of_nat ((n + N - k) / N) - 1)) * Z.of_nat N + Z.of_nat w * Z.of_nat ((n + N - k) mod N))%Z.
  - rewrite (ex_add _ _ _ ex), (W_mul_l R t N ex _ 0). ring.
  - assert (E' : (Z.of_nat n + Z.of_nat N - Z.of_nat k = Z.of_nat N * Z.of_nat ((n + N - k) / N) + Z.of_nat ((n + N - k) mod N))%Z) by lia.
    replace (Z.of_nat n - Z.of_nat k)%Z with (Z.of_nat N * Z.of_nat ((n + N - k) / N) + Z.of_nat ((n + N - k) mod N) - Z.of_nat N)%Z by lia. ring.
Qed.
Lemma convolution N (ex : exact R t N) (x h : nat -> C) n : 0 < N -> n < N ->
  DFT 1 N (fun w => (DFT (-1) N x w * DFT (-1) N h w)%cr) n = (nat_r R N * sum (fun k => (h k * x ((n + N - k) mod N)%nat)%cr) N)%cr.
Proof.
  intros HN Hn.
  transitivity (sum (fun k => (h k * DFT 1 N (DFT (-1) N x) ((n + N - k) mod N)%nat)%cr) N).
  - unfold Dft.DFT at 1.
    transitivity (sum (fun w => sum (fun k => (h k * (DFT (-1) N x w * W N (1 * Z.of_nat w * Z.of_nat ((n + N - k) mod N)%nat)%Z))%cr) N) N).
    + apply (sum_ext (Cr R)). intros w Hw. unfold Dft.DFT at 2.
      rewrite <- (sum_mul_l (Cr R)), <- (sum_mul_r R). apply (sum_ext (Cr R)). intros k Hk.
      replace (1 * Z.of_nat w * Z.of_nat ((n + N - k) mod N))%Z with (Z.of_nat w * Z.of_nat ((n + N - k) mod N))%Z by ring.
      rewrite <- shift_round by assumption.
      replace (Z.of_nat w * (Z.of_nat n - Z.of_nat k))%Z with (-1 * Z.of_nat k * Z.of_nat w + 1 * Z.of_nat w * Z.of_nat n)%Z by ring.
      rewrite (ex_add _ _ _ ex). ring.
    + rewrite (sum_swap (Cr R)). apply (sum_ext (Cr R)). intros k Hk. rewrite (sum_mul_l (Cr R)). reflexivity.
  - rewrite <- (sum_mul_l (Cr R)). apply (sum_ext (Cr R)). intros k Hk.
    rewrite (DFT_inv R t N ex 1 x) by (auto; apply Nat.mod_upper_bound; lia). ring.
Qed.
Lemma sum_padded (h : nat -> C) (g : nat -> C) K N : K <= N -> sum (fun k => ((if k <? K then h k else r0) * g k)%cr) N = sum (fun k => (h k * g k)%cr) K.
Proof.
  intros H. replace N with (K + (N - K)) by lia. rewrite (sum_app (Cr R)), (sum_0 (Cr R) _ (N - K)).
  - transitivity (sum (fun k => ((if k <? K then h k else r0) * g k)%cr) K); [ring|]. apply (sum_ext (Cr R)). intros k Hk.
    rewrite (proj2 (Nat.ltb_lt k K)) by exact Hk. reflexivity.
  - intros i _. rewrite (proj2 (Nat.ltb_ge (K + i) K)) by lia. ring.
Qed.
Lemma DFT_ext e N (x y : nat -> C) w : (forall k, k < N -> x k = y k) -> DFT e N x w = DFT e N y w.
Proof. intros H. unfold Dft.DFT. apply (sum_ext (Cr R)). intros k Hk. rewrite H by exact Hk. reflexivity. Qed.
Lemma round_line N K (ex : exact R t N) sc (h x : nat -> C) n : 0 < N -> K <= N -> n < N -> (nat_r R N * ofR R sc)%cr = (1%cr : C) ->
  fft t N 1 sc (fun w => (fft t N (-1) r1 x w * fft t N (-1) r1 (fun k => if k <? K then h k else r0) w)%cr) n = filtered_round N K h x n.
Proof.
  intros HN HK Hn Hs. unfold fft.
  rewrite (DFT_ext 1 N _ (fun w => (DFT (-1) N x w * DFT (-1) N (fun k => if k <? K then h k else r0) w)%cr)).
  - rewrite convolution by assumption. unfold filtered_round.
    rewrite (sum_padded h (fun k => x ((n + N - k) mod N)) K N HK).
    set (S := sum _ K). transitivity ((nat_r R N * ofR R sc) * S)%cr; [ring|]. rewrite Hs. ring.
  - intros k Hk. change (ofR R r1) with (1%cr : C). ring.
Qed.
Lemma round_middle N K (h x : nat -> C) n : n < N -> K <= n + 1 -> filtered_round N K h x n = filtered K h x n.
Proof.
  intros Hn HK. unfold filtered_round, filtered. apply (sum_ext (Cr R)). intros k Hk. rewrite (proj2 (Nat.leb_le k n)) by lia.
  replace (n + N - k) with (n - k + 1 * N) by lia. rewrite Nat.mod_add by lia. rewrite Nat.mod_small by lia. reflexivity.
Qed.

Section Rows.
Variables (M N K : nat) (inputs filters : nat -> nat -> C).
Variable out : nat -> nat -> C.
Lemma expr_rows sc loops : exact R t N -> 0 < N -> K <= N -> 0 < loops -> (nat_r R N * ofR R sc)%cr = (1%cr : C) ->
  exists out', expr t M N K inputs filters sc loops out = Some out' /\
    forall i n, i < M -> n < N -> out' i n = filtered_round N K (filters i) (inputs i) n.
Proof.
  intros ex HN HK Hl Hs. unfold expr, padded. rewrite (proj2 (Nat.leb_le K N) HK). cbn [bind]. cbv zeta.
  apply (loop_last _ (fun out' => forall i n, i < M -> n < N -> out' i n = filtered_round N K (filters i) (inputs i) n)); [exact Hl|].
  intros _ s. eexists. split; [reflexivity|]. intros i n Hi Hn. unfold expr_once. rewrite (proj2 (Nat.ltb_lt i M) Hi). unfold fftm.
  rewrite <- (round_line N K ex sc) by assumption. unfold fft at 1 4. f_equal. apply DFT_ext. intros w _. ring.
Qed.
Lemma fast_rows sc loops : exact R t N -> 0 < N -> K <= N -> 0 < loops -> (nat_r R N * ofR R sc)%cr = (1%cr : C) ->
  exists out', fast t M N K inputs filters sc loops out = Some out' /\
    forall i n, i < M -> n < N -> out' i n = filtered_round N K (filters 0) (inputs i) n.
Proof.
  intros ex HN HK Hl Hs. unfold fast, padded. rewrite (proj2 (Nat.leb_le K N) HK). cbn [bind].
  set (p := fun i k : nat => if k <? K then filters i k else r0).
  assert (Resp : exists resp, responses t M N p = Some resp /\ (0 < M -> resp 0 = fft t N (-1) r1 (p 0))).
  { unfold responses.
    assert (G : forall m i s, (i = 0 -> s = p) -> (0 < i -> s 0 = fft t N (-1) r1 (p 0)) -> exists s', loop (fun i resp => Some (set_row resp i (fft t N (-1) r1 (resp i)))) i m s = Some s' /\ (0 < i + m -> s' 0 = fft t N (-1) r1 (p 0))).
    { induction m as [|m IH]; intros i s H0 H1; cbn [loop]; [exists s; split; [reflexivity|]; intros H; apply H1; lia|].
      cbn [bind]. destruct (IH (i + 1) (set_row s i (fft t N (-1) r1 (s i)))) as (s' & E & HE); [lia| |exists s'; split; [exact E|]; intros _; apply HE; lia].
      intros _. unfold set_row. destruct i; cbn [Nat.eqb]; [rewrite H0 by reflexivity; reflexivity | apply H1; lia]. }
    destruct (G M 0 p) as (s' & E & HE); [reflexivity | lia | exists s'; split; [exact E | exact HE]]. }
  destruct Resp as (resp & E & H0). rewrite E. cbn [bind].
  apply (loop_last _ (fun out' => forall i n, i < M -> n < N -> out' i n = filtered_round N K (filters 0) (inputs i) n)); [exact Hl|].
  intros _ s. unfold fast_once.
  destruct (loop_rows (fun i out => let tmp := fft t N (-1) r1 (inputs i) in let tmp := fun w => (tmp w * resp 0%nat w)%cr in Some (set_row out i (fft t N 1 sc tmp)))
    (fun i r => forall n, n < N -> r n = filtered_round N K (filters 0) (inputs i) n) M) with (out := s) as (s' & E' & H').
  - intros i o Hi. cbv zeta. eexists. split; [reflexivity|]. intros n Hn. rewrite H0 by lia. apply round_line; assumption.
  - exists s'. split; [exact E'|]. intros i n Hi Hn. apply H'; assumption.
Qed.
Lemma conv_at_filtered (h x : nat -> C) n : n < N -> conv_at (K := C) (row_of h K) (row_of x N) n = filtered K h x n.
Proof.
  intros Hn. unfold conv_at, filtered, row_of. rewrite map_length, seq_length. apply (sum_ext (Cr R)). intros k Hk.
  rewrite (nth_indep _ _ (h 0)) by (rewrite map_length, seq_length; exact Hk). rewrite map_nth, seq_nth by exact Hk. cbn [Nat.add].
  destruct (Nat.leb_spec k n); [|ring].
  rewrite (nth_indep _ _ (x 0)) by (rewrite map_length, seq_length; lia). rewrite map_nth, seq_nth by lia. reflexivity.
Qed.
Lemma full_rows loops : 1 < K -> 0 < N -> K <= N + 1 -> 0 < loops ->
  exists out', full M N K inputs filters loops out = Some out' /\
    forall i n, i < M -> n < N -> out' i n = filtered K (filters i) (inputs i) n.
Proof.
  intros HK HN HKN Hl. unfold full.
  assert (Mk : forall i, exists f, make_fir (K := C) nonsym (row_of (filters i) K) N 1 = Some f).
  { intros i. apply (make_some nonsym _ (row_of (filters i) K)); unfold row_of; try (cbn; rewrite ?map_length, ?seq_length; lia || auto). }
  assert (Bank : exists bank, make_bank M N K filters = Some bank /\
            forall i, i < M -> exists f, nth_error bank i = Some f /\ make_fir (K := C) nonsym (row_of (filters i) K) N 1 = Some f).
  { unfold make_bank.
    assert (G : forall m i l, length l = i -> (forall j, j < i -> exists f, nth_error l j = Some f /\ make_fir (K := C) nonsym (row_of (filters j) K) N 1 = Some f) ->
      exists bank, loop (fun i l => f <- make_fir (K := C) nonsym (row_of (filters i) K) N 1 ;; Some (l ++ [f])) i m l = Some bank /\
        forall j, j < i + m -> exists f, nth_error bank j = Some f /\ make_fir (K := C) nonsym (row_of (filters j) K) N 1 = Some f).
    { induction m as [|m IH]; intros i l Hi H; cbn [loop]; [exists l; split; [reflexivity|]; intros j Hj; apply H; lia|].
      destruct (Mk i) as (f & E). rewrite E. cbn [bind]. destruct (IH (i + 1) (l ++ [f])) as (bank & EB & HB).
      - rewrite app_length, Hi. cbn. lia.
      - intros j Hj. destruct (Nat.eq_dec j i) as [-> | Ne].
        + exists f. split; [|exact E]. rewrite nth_error_app2 by lia. rewrite Hi, Nat.sub_diag. reflexivity.
        + rewrite nth_error_app1 by lia. apply H. lia.
      - exists bank. split; [exact EB|]. intros j Hj. apply HB. lia. }
    apply (G M 0 []); [reflexivity | lia]. }
  destruct Bank as (bank & EB & HB). rewrite EB. cbn [bind].
  apply (loop_last _ (fun out' => forall i n, i < M -> n < N -> out' i n = filtered K (filters i) (inputs i) n)); [exact Hl|].
  intros _ s. unfold full_once.
  match goal with |- exists s', loop ?f 0 M s = _ /\ _ =>
    destruct (loop_rows f (fun i r => forall n, n < N -> r n = filtered K (filters i) (inputs i) n) M) with (out := s) as (s' & E' & H') end.
  - intros i o Hi. destruct (HB i Hi) as (f & E & Ef). rewrite E. cbn [bind].
    destruct (no_save nonsym (row_of (filters i) K) (row_of (filters i) K) N 1 f [(row_of (inputs i) N, row_of (o i) N)] eq_refl Ef) as (r & Er & F2).
    { constructor; [|constructor]. unfold ceil_div, row_of. cbn [fst snd]. rewrite !map_length, !seq_length, Nat.add_sub, Nat.div_1_r. auto. }
    rewrite Er. cbn [bind snd]. inversion F2 as [|? ? ? ? [_ Ho] F2' ]; subst. inversion F2'; subst. destruct y as [y n0]. cbn [fst] in Ho.
    eexists. split; [reflexivity|]. intros n Hn. cbv beta. rewrite Ho. unfold ceil_div. rewrite Nat.add_sub, Nat.div_1_r.
    rewrite (nth_indep _ _ (conv_at (K := C) (row_of (filters i) K) (row_of (inputs i) N) (0 * 1))) by (rewrite map_length, seq_length; exact Hn).
    rewrite (map_nth (fun q => conv_at (K := C) (row_of (filters i) K) (row_of (inputs i) N) (q * 1))), seq_nth by exact Hn.
    rewrite Nat.mul_1_r. apply conv_at_filtered. exact Hn.
  - exists s'. split; [exact E'|]. intros i n Hi Hn. apply H'; assumption.
Qed.
End Rows.
End Bank.
