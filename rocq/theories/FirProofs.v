(** Proofs about the FIR filter. *)
From Coq Require Import ZArith List Lia Bool Arith.
From Verif Require Import Base Fir.
Import ListNotations.
Local Open Scope nat_scope.

Lemma usub_ok a b : b <= a -> usub a b = Some (a - b).
Proof. intros H. unfold usub. rewrite (proj2 (Nat.leb_le b a) H). reflexivity. Qed.
Lemma assert_true {A} b (x : option A) : b = true -> (assert b ;; x) = x.
Proof. intros ->. reflexivity. Qed.

(** A loop that makes progress ends with its invariant and its condition false. *)
Lemma while_inv {S} (mu : S -> nat) (P : S -> Prop) (c : S -> bool) body :
  (forall s, P s -> c s = true -> exists s', body s = Some s' /\ P s' /\ mu s' < mu s) ->
  forall fuel s, mu s < fuel -> P s -> exists s', while fuel c body s = Some s' /\ P s' /\ c s' = false.
Proof.
  intros B. induction fuel as [|f IH]; intros s M Hs; [lia|]. cbn [while]. destruct (c s) eqn:C.
  - destruct (B s Hs C) as (s' & E & Hs' & D). rewrite E. cbn [bind]. apply IH; [lia|exact Hs'].
  - exists s. auto.
Qed.

Section F.
Context {K : CRing}.
Add Ring Kring : (r_th K).
Local Open Scope cr_scope.

Lemma sub_ok (l : list K) off len : (off + len <= length l)%nat -> sub l off len = Some (firstn len (skipn off l)).
Proof. intros H. unfold sub. apply assert_true. apply Nat.leb_le. exact H. Qed.
Lemma skip_nth (l : list K) n : forall i d, nth i (skipn n l) d = nth (n + i) l d.
Proof. revert l. induction n as [|n IH]; intros l i d; [reflexivity|]. destruct l as [|x l]; [destruct i; reflexivity|]. cbn. apply IH. Qed.
Lemma first_nth (l : list K) n : forall i d, (i < n)%nat -> nth i (firstn n l) d = nth i l d.
Proof. revert l. induction n as [|n IH]; intros l i d H; [lia|]. destruct l as [|x l]; [reflexivity|]. destruct i as [|i]; cbn; [reflexivity|]. apply IH. lia. Qed.
Lemma sub_len (l : list K) off len : (off + len <= length l)%nat -> length (firstn len (skipn off l)) = len.
Proof. intros H. rewrite firstn_length, skipn_length. lia. Qed.
Lemma sub_nth (l : list K) off len i : (i < len)%nat -> nth i (firstn len (skipn off l)) 0 = nth (off + i) l 0.
Proof. intros H. rewrite first_nth by exact H. apply skip_nth. Qed.
Lemma dot_ok (a b : list K) : length a = length b -> dot a b = Some (sum (fun k => nth k a 0 * nth k b 0) (length a)).
Proof.
  intros L. unfold dot. rewrite assert_true by (apply Nat.eqb_eq; exact L).
  destruct (loop_inv (fun k s => x <- bget a k ;; y <- bget b k ;; Some (s + x * y)) (fun k s => s = sum (fun k => nth k a 0 * nth k b 0) k) (length a) 0 0) as (s & E & P).
  - reflexivity.
  - intros k s Hk ->. unfold bget. rewrite (nth_error_nth' a 0), (nth_error_nth' b 0) by lia. cbn [bind]. eexists. split; [reflexivity|].
    replace (k + 1)%nat with (S k) by lia. cbn [sum]. ring.
  - rewrite E. f_equal. exact P.
Qed.
Lemma dot_sub (a b : list K) o1 o2 len : (o1 + len <= length a)%nat -> (o2 + len <= length b)%nat ->
  dot (firstn len (skipn o1 a)) (firstn len (skipn o2 b)) = Some (sum (fun k => nth (o1 + k) a 0 * nth (o2 + k) b 0) len).
Proof.
  intros H1 H2. rewrite dot_ok by (rewrite !sub_len by assumption; reflexivity). rewrite sub_len by exact H1. f_equal. apply sum_ext. intros k Hk. rewrite !sub_nth by exact Hk. reflexivity.
Qed.

(** The convolution, in terms of the reversed kernel. *)
Lemma conv_rev (h kr x : list K) m p : length h = (m + 1)%nat -> kr = rev h ->
  conv_at h x p = sum (fun k => nth k kr 0 * (if (m - k <=? p)%nat then nth (p - (m - k)) x 0 else 0)) (m + 1).
Proof.
  intros L ->. unfold conv_at. rewrite L, sum_rev. apply sum_ext. intros k Hk. replace (m + 1 - 1 - k)%nat with (m - k)%nat by lia.
  rewrite rev_nth by lia. rewrite L. replace (m + 1 - S k)%nat with (m - k)%nat by lia. reflexivity.
Qed.
Lemma conv_prefix (h x y : list K) p : (p < length x)%nat -> conv_at h (x ++ y) p = conv_at h x p.
Proof. intros H. unfold conv_at. apply sum_ext. intros j Hj. destruct (Nat.leb_spec j p); [|reflexivity]. rewrite app_nth1 by lia. reflexivity. Qed.

(** ** One call *)
(** The filter after the samples [x]. *)
Record good (h x : list K) (f : fir K) : Prop := {
  gd_d : (0 < decimation (base f) <= order_ (base f))%nat;
  gd_n : (order_ (base f) <= input_size (base f))%nat;
  gd_o : output_size (base f) = ceil_div (input_size (base f)) (decimation (base f));
  gd_h : length h = (order_ (base f) + 1)%nat;
  gd_k : kernel_ f = rev h;
  gd_st : length (state_ f) = (order_ (base f) + 1)%nat;
  gd_skip : (skip_ f < decimation (base f))%nat;
  gd_pos : exists q, (length x + skip_ f = q * decimation (base f))%nat;
  gd_blk : exists c, length x = (c * input_size (base f))%nat;
  gd_saved : (state_saved_ f = 0%nat /\ skip_ f = 0%nat /\ x = []) \/
             (state_saved_ f = (order_ (base f) - skip_ f)%nat /\ (state_saved_ f <= length x)%nat /\
              forall s, (s < state_saved_ f)%nat -> nth s (state_ f) 0 = nth (length x - state_saved_ f + s) x 0)
}.

Lemma ceil_lt q d n : (0 < d)%nat -> (q * d < n)%nat -> (q < ceil_div n d)%nat.
Proof. intros D H. unfold ceil_div. apply Nat.lt_le_trans with (q + 1)%nat; [lia|]. apply Nat.div_le_lower_bound; [lia|]. rewrite Nat.mul_comm, Nat.mul_add_distr_r. lia. Qed.
Lemma ceil_unique q d n : (0 < d)%nat -> (n <= q * d)%nat -> (q * d < n + d)%nat -> q = ceil_div n d.
Proof.
  intros D H1 H2. unfold ceil_div. apply (Nat.div_unique (n + d - 1) d q (n + d - 1 - q * d)); [lia|]. rewrite Nat.mul_comm. lia.
Qed.

Lemma apply_ok save h x f b out : good h x f -> length b = input_size (base f) -> length out = output_size (base f) -> (save = false -> x = []) ->
  exists f' out' n, apply save f b out = Some (f', out', n) /\
    (save = true -> good h (x ++ b) f' /\ base f' = base f) /\ (save = false -> f' = f) /\
    length out' = length out /\ (n <= length out)%nat /\
    (forall q, (n <= q)%nat -> nth_error out' q = nth_error out q) /\
    (forall q, (q < n)%nat -> (skip_ f + q * decimation (base f) < input_size (base f))%nat /\
       nth_error out' q = Some (conv_at h (x ++ b) (length x + skip_ f + q * decimation (base f)))) /\
    (input_size (base f) <= skip_ f + n * decimation (base f) < input_size (base f) + decimation (base f))%nat.
Proof.
  intros G Lb Lo NS. destruct G as [Gd Gn Go Gh Gk Gst Gsk [q0 Gpos] [c0 Gblk] Gsv].
  unfold apply. set (D := decimation (base f)) in *. set (m := order_ (base f)) in *. set (N := input_size (base f)) in *. set (sk := skip_ f) in *. set (sv := state_saved_ f) in *.
  set (L := length x) in *. set (y := fun p => conv_at h (x ++ b) p).
  assert (Lk : length (kernel_ f) = (m + 1)%nat) by (rewrite Gk, rev_length; exact Gh).
  assert (Y : forall p, y p = sum (fun k => nth k (kernel_ f) 0 * (if (m - k <=? p)%nat then nth (p - (m - k)) (x ++ b) 0 else 0)) (m + 1)) by (intros p; apply conv_rev; assumption).
  rewrite usub_ok by lia. cbn [bind].
  (* first loop *)
  set (P1 := fun s : nat * nat * list K => let '(oix, i, o) := s in (i = oix * D)%nat /\ (i < m - sk + D)%nat /\ length o = length out /\
     (forall q, (oix <= q)%nat -> nth_error o q = nth_error out q) /\
     (forall q, (q < oix)%nat -> (sk + q * D < N)%nat /\ nth_error o q = Some (y (L + sk + q * D)%nat))).
  match goal with |- context [while (S m) ?C ?B ?s0] => destruct (while_inv (fun '(_, i, _) => (m - i)%nat) P1 C B) with (fuel := S m) (s := s0) as (r & E & Hr & Cr) end.
  { intros [[oix i] o] (Ei & Hi & Lo' & Old & New) C. apply Nat.ltb_lt in C. rewrite usub_ok by lia. cbn [bind].
    rewrite (sub_ok (kernel_ f)) by lia. cbn [bind]. rewrite (sub_ok b) by lia. cbn [bind]. rewrite dot_sub by lia. cbn [bind].
    match goal with |- exists s', (t <- ?X ;; _) = _ /\ _ => assert (EX : X = Some (y (L + sk + i)%nat)) end.
    { assert (E2 : y (L + sk + i)%nat = sum (fun k => nth k (kernel_ f) 0 * (if (m - k <=? L + sk + i)%nat then nth (L + sk + i - (m - k)) (x ++ b) 0 else 0)) (m - sk - i)
         + sum (fun k => nth (m - sk - i + k) (kernel_ f) 0 * nth (0 + k) b 0) (i + sk + 1)).
      { rewrite Y. replace (m + 1)%nat with ((m - sk - i) + (i + sk + 1))%nat by lia. rewrite sum_app. f_equal.
        apply sum_ext. intros j Hj. rewrite (proj2 (Nat.leb_le _ _)) by lia. rewrite app_nth2 by (fold L; lia). fold L. do 2 f_equal. lia. }
      rewrite E2. clear E2. destruct Gsv as [(S0 & K0 & X0)|(S1 & S2 & S3)].
      - rewrite S0. change (i <? 0)%nat with false. rewrite andb_false_r. f_equal.
        rewrite (sum_0 K (fun k => nth k (kernel_ f) 0 * _)).
        + ring.
        + intros k Hk. assert (L = 0)%nat by (unfold L; rewrite X0; reflexivity). rewrite (proj2 (Nat.leb_gt _ _)) by lia. ring.
      - assert (i < sv)%nat by lia. rewrite (proj2 (Nat.ltb_lt i sv)) by assumption. destruct save.
        + cbn [andb]. rewrite usub_ok by lia. cbn [bind]. rewrite (sub_ok (kernel_ f)) by lia. cbn [bind]. rewrite (sub_ok (state_ f)) by lia. cbn [bind].
          rewrite dot_sub by lia. cbn [bind]. f_equal.
          assert (E3 : sum (fun k => nth (0 + k) (kernel_ f) 0 * nth (i + k) (state_ f) 0) (sv - i) = sum (fun k => nth k (kernel_ f) 0 * (if (m - k <=? L + sk + i)%nat then nth (L + sk + i - (m - k)) (x ++ b) 0 else 0)) (m - sk - i)).
          { replace (sv - i)%nat with (m - sk - i)%nat by lia. apply sum_ext. intros k Hk. rewrite S3 by lia. rewrite (proj2 (Nat.leb_le _ _)) by lia.
            rewrite app_nth1 by (fold L; lia). fold L. cbn [Nat.add]. do 2 f_equal. lia. }
          rewrite E3. ring.
        + exfalso. assert (x = []) by (apply NS; reflexivity). assert (L = 0)%nat by (unfold L; subst x; reflexivity). lia. }
    rewrite EX. cbn [bind]. assert (Oq : (oix < length o)%nat). { rewrite Lo', Lo, Go. apply ceil_lt; lia. }
    rewrite bput_some by exact Oq. cbn [bind]. eexists. split; [reflexivity|]. split; [|lia].
    split; [lia|]. split; [lia|]. split; [rewrite lset_length; exact Lo'|]. split.
    - intros q Hq. rewrite lset_nth. rewrite (proj2 (Nat.eqb_neq q oix)) by lia. apply Old. lia.
    - intros q Hq. rewrite lset_nth. destruct (Nat.eqb_spec q oix) as [->|Nq].
      + rewrite (proj2 (Nat.ltb_lt _ _) Oq). split; [lia|]. rewrite Ei. reflexivity.
      + apply New. lia. }
  { lia. }
  { split; [lia|]. split; [lia|]. split; [reflexivity|]. split; [reflexivity|]. intros; lia. }
  rewrite E. cbn [bind]. clear E. destruct r as [[oix i] o]. destruct Hr as (Ei & Hi & Lo' & Old & New). apply Nat.ltb_ge in Cr. rewrite usub_ok by lia. cbn [bind].
  (* second loop *)
  set (P2 := fun s : nat * nat * list K => let '(oix, st, o) := s in (st + (m - sk) = oix * D)%nat /\ (st + m < N + D)%nat /\ length o = length out /\
     (forall q, (oix <= q)%nat -> nth_error o q = nth_error out q) /\
     (forall q, (q < oix)%nat -> (sk + q * D < N)%nat /\ nth_error o q = Some (y (L + sk + q * D)%nat))).
  match goal with |- context [while (S N) ?C ?B ?s0] => destruct (while_inv (fun '(_, i, _) => (N - i)%nat) P2 C B) with (fuel := S N) (s := s0) as (r & E & Hr & Cr2) end.
  { intros [[ox st] o2] (Es & Hs & Lo2 & Old2 & New2) C. apply Nat.ltb_lt in C. rewrite (sub_ok b) by lia. cbn [bind].
    assert (ED : dot (kernel_ f) (firstn (m + 1) (skipn st b)) = Some (y (L + st + m)%nat)).
    { rewrite dot_ok by (rewrite sub_len by lia; lia). f_equal. rewrite Lk, Y. apply sum_ext. intros k Hk. rewrite sub_nth by lia. rewrite (proj2 (Nat.leb_le _ _)) by lia.
      rewrite app_nth2 by (fold L; lia). fold L. do 2 f_equal. lia. }
    rewrite ED. cbn [bind]. assert (Oq : (ox < length o2)%nat). { rewrite Lo2, Lo, Go. apply ceil_lt; lia. }
    rewrite bput_some by exact Oq. cbn [bind]. eexists. split; [reflexivity|]. split; [|lia].
    split; [lia|]. split; [lia|]. split; [rewrite lset_length; exact Lo2|]. split.
    - intros q Hq. rewrite lset_nth. rewrite (proj2 (Nat.eqb_neq q ox)) by lia. apply Old2. lia.
    - intros q Hq. rewrite lset_nth. destruct (Nat.eqb_spec q ox) as [->|Nq].
      + rewrite (proj2 (Nat.ltb_lt _ _) Oq). split; [lia|]. do 2 f_equal. lia.
      + apply New2. lia. }
  { lia. }
  { split; [lia|]. split; [lia|]. split; [exact Lo'|]. split; assumption. }
  rewrite E. cbn [bind]. clear E. destruct r as [[ox st] o2]. destruct Hr as (Es & Hs & Lo2 & Old2 & New2). apply Nat.ltb_ge in Cr2.
  assert (On : (ox <= length out)%nat). { destruct ox as [|ox']; [lia|]. rewrite Lo, Go. destruct (New2 ox') as [X _]; [lia|]. apply ceil_lt; lia. }
  destruct save.
  - rewrite usub_ok by lia. cbn [bind].
    assert (SK : forall t, (st + m - N = t -> N mod D = 0 -> t = 0)%nat).
    { intros t Et Hm. apply Nat.mod_divides in Hm as [e He]; [|lia].
      assert (Q : ((c0 + 1) * N + t = (q0 + ox) * D)%nat) by lia.
      assert (Q2 : (t = ((q0 + ox) - (c0 + 1) * e) * D)%nat). { rewrite Nat.mul_sub_distr_r, <- Q, He. rewrite <- Nat.mul_assoc, (Nat.mul_comm e D). lia. }
      destruct ((q0 + ox) - (c0 + 1) * e)%nat as [|z]; [lia|]. cbn in Q2. lia. }
    rewrite assert_true.
    2:{ destruct (Nat.eqb_spec (N mod D) 0) as [Hm|]; [|reflexivity]. apply Nat.eqb_eq. exact (SK _ eq_refl Hm). }
    rewrite usub_ok by lia. cbn [bind]. rewrite (sub_ok b) by lia. cbn [bind]. rewrite assert_true by (apply Nat.leb_le; lia).
    eexists _, _, _. split; [reflexivity|]. split; [|split; [discriminate|split; [exact Lo2|split; [exact On|split; [exact Old2|split; [exact New2|lia]]]]]].
    intros _. split; [|reflexivity]. constructor; cbn [base skip_ kernel_ state_ state_saved_]; try assumption.
    + rewrite app_length, sub_len by lia. rewrite skipn_length. fold m. lia.
    + fold D. lia.
    + exists (q0 + ox)%nat. rewrite app_length. fold L D. lia.
    + exists (c0 + 1)%nat. rewrite app_length. fold L N. lia.
    + right. rewrite app_length. fold L m. split; [lia|]. split; [lia|]. intros s Hs'. rewrite app_nth1 by (rewrite sub_len; lia). rewrite sub_nth by lia.
      rewrite app_nth2 by (fold L; lia). fold L. f_equal. lia.
  - eexists _, _, _. split; [reflexivity|]. split; [discriminate|]. split; [reflexivity|]. split; [exact Lo2|split; [exact On|split; [exact Old2|split; [exact New2|lia]]]].
Qed.

(** ** Any number of calls *)
Lemma run_ok h : forall calls x f, good h x f -> Forall (fun c => length (fst c) = input_size (base f) /\ length (snd c) = output_size (base f)) calls ->
  let X := x ++ flat_map fst calls in
  exists f' r, run true f calls = Some (f', r) /\ good h X f' /\ length r = length calls /\
    Forall2 (fun c o => length (fst o) = length (snd c) /\ (snd o <= output_size (base f))%nat /\ (input_size (base f) mod decimation (base f) = 0%nat -> snd o = output_size (base f)) /\
                      forall q, (snd o <= q)%nat -> nth_error (fst o) q = nth_error (snd c) q) calls r /\
    forall q0, (length x + skip_ f = q0 * decimation (base f))%nat ->
      outputs r = map (fun q => conv_at h X ((q0 + q) * decimation (base f))) (seq 0 (length (outputs r))) /\
      (length X <= (q0 + length (outputs r)) * decimation (base f) < length X + decimation (base f))%nat.
Proof.
  induction calls as [|[b out] calls IH]; intros x f G Fc X.
  - exists f, []. cbn [flat_map] in X. unfold X. rewrite app_nil_r. split; [reflexivity|]. split; [exact G|]. split; [reflexivity|]. split; [constructor|].
    intros q0 E. split; [reflexivity|]. pose proof (gd_skip _ _ _ G). cbn. lia.
  - inversion Fc as [|? ? [Lb Lo] Fr]; subst. cbn [fst snd] in Lb, Lo. cbn [run]. unfold filter.
    rewrite assert_true by (apply Nat.eqb_eq; exact Lb). rewrite assert_true by (apply Nat.eqb_eq; exact Lo).
    destruct (apply_ok true h x f b out G Lb Lo ltac:(discriminate)) as (f1 & o1 & n1 & E & G1 & _ & L1 & N1 & Old & New & Cnt).
    destruct (G1 eq_refl) as [Gf1 Bf1]. rewrite E. cbn [bind].
    destruct (IH (x ++ b) f1 Gf1) as (f' & r & Er & Gr & Lr & Fr2 & Out); [rewrite Bf1; exact Fr|]. rewrite Er. cbn [bind fst snd].
    exists f', ((o1, n1) :: r). split; [reflexivity|].
    assert (EX : (x ++ b) ++ flat_map fst calls = X) by (unfold X; cbn [flat_map fst]; rewrite app_assoc; reflexivity).
    rewrite EX in Gr, Out. split; [exact Gr|]. split; [cbn; congruence|]. rewrite Bf1 in Fr2, Out.
    pose proof (gd_d _ _ _ G) as [Dp _]. pose proof (gd_o _ _ _ G) as Ho. set (D := decimation (base f)) in *.
    assert (EO : outputs ((o1, n1) :: r) = firstn n1 o1 ++ outputs r) by reflexivity.
    assert (LF : length (firstn n1 o1) = n1) by (rewrite firstn_length; lia).
    split.
    + constructor; [|exact Fr2]. cbn [fst snd]. split; [exact L1|]. split; [lia|]. split; [|exact Old].
      intros Hm. apply Nat.mod_divides in Hm as [e He]; [|lia]. 
      assert (S0 : skip_ f = 0%nat).
      { destruct (gd_blk _ _ _ G) as [c Hc], (gd_pos _ _ _ G) as [q Hq]. pose proof (gd_skip _ _ _ G) as Sk. fold D in Hq, Sk. rewrite Hc, He in Hq.
        assert (Q : (skip_ f = (q - c * e) * D)%nat) by (rewrite Nat.mul_sub_distr_r, <- Hq, <- Nat.mul_assoc, (Nat.mul_comm e D); lia).
        destruct (q - c * e)%nat as [|z]; [lia|]. cbn in Q. lia. }
      rewrite Ho. fold D. apply ceil_unique; lia.
    + intros q0 E0. destruct (Out (q0 + n1)%nat) as [O1 O2].
      { destruct (gd_pos _ _ _ Gf1) as [q1 H1]. rewrite Bf1 in H1. fold D in H1. pose proof (gd_skip _ _ _ Gf1) as S1. rewrite Bf1 in S1. fold D in S1.
        rewrite H1. f_equal. rewrite app_length in *. assert ((q0 + n1) * D <= q1 * D)%nat.
        { destruct (Nat.le_gt_cases (q0 + n1) q1) as [?|Hlt]; [apply Nat.mul_le_mono_r; assumption|]. assert (q1 + 1 <= q0 + n1)%nat by lia.
          assert ((q1 + 1) * D <= (q0 + n1) * D)%nat by (apply Nat.mul_le_mono_r; assumption). lia. }
        destruct (Nat.lt_trichotomy q1 (q0 + n1)) as [Hlt|[?|Hgt]]; [|assumption|].
        - assert ((q1 + 1) * D <= (q0 + n1) * D)%nat by (apply Nat.mul_le_mono_r; lia). lia.
        - assert ((q0 + n1 + 1) * D <= q1 * D)%nat by (apply Nat.mul_le_mono_r; lia). lia. }
      rewrite EO, app_length, LF. split.
      * rewrite seq_app, map_app. f_equal.
        -- apply nth_error_ext. intros q. rewrite nth_error_map_seq. destruct (Nat.ltb_spec q n1) as [Hq|Hq].
           ++ destruct (New q Hq) as [Hlt HN]. rewrite <- (firstn_skipn n1 o1) in HN. rewrite nth_error_app1 in HN by lia. rewrite HN. f_equal.
              rewrite <- EX. rewrite (conv_prefix h (x ++ b) (flat_map fst calls)) by (rewrite app_length; fold D in Hlt |- *; lia). f_equal. fold D. cbn [Nat.add]. lia.
           ++ apply nth_error_None. lia.
        -- rewrite O1 at 1. cbn [Nat.add].
           assert (Sh : forall n a, seq (n1 + a) n = map (fun q => (n1 + q)%nat) (seq a n)).
           { induction n as [|n IHn]; intros a; cbn; [reflexivity|]. f_equal. replace (S (n1 + a)) with (n1 + S a)%nat by lia. apply IHn. }
           specialize (Sh (length (outputs r)) 0%nat). rewrite Nat.add_0_r in Sh. rewrite Sh, map_map. apply map_ext. intros q. f_equal. lia.
      * replace ((q0 + (n1 + length (outputs r))) * D)%nat with ((q0 + n1 + length (outputs r)) * D)%nat by lia. exact O2.
Qed.

(** ** Construction *)
Lemma unpack_fwd (tmp a : list K) k : k = length tmp -> (k <= length a)%nat ->
  exists a', loop (fun j a => x <- bget tmp j ;; bput a j x) 0 k a = Some a' /\ length a' = length a /\
    forall j, nth_error a' j = if (j <? k)%nat then nth_error tmp j else nth_error a j.
Proof.
  intros Ek La.
  destruct (loop_inv (fun j a => x <- bget tmp j ;; bput a j x) (fun n b => length b = length a /\ forall j, nth_error b j = if (j <? n)%nat then nth_error tmp j else nth_error a j) k 0 a) as (a' & E & P).
  - split; [reflexivity|]. intros j. reflexivity.
  - intros n b Hn [Lb Hb]. unfold bget. destruct (nth_error tmp n) as [x|] eqn:Ex; [|apply nth_error_None in Ex; lia]. cbn [bind].
    rewrite bput_some by lia. eexists. split; [reflexivity|]. split; [rewrite lset_length; exact Lb|]. intros j. rewrite lset_nth.
    destruct (Nat.eqb_spec j n) as [->|Nj].
    + rewrite (proj2 (Nat.ltb_lt n (length b))) by lia. rewrite (proj2 (Nat.ltb_lt n (n + 1))) by lia. symmetry. exact Ex.
    + rewrite Hb. destruct (Nat.ltb_spec j n), (Nat.ltb_spec j (n + 1)); try reflexivity; lia.
  - exists a'. split; [exact E|exact P].
Qed.
Lemma unpack_bwd (tmp : list K) m k : k = length tmp -> (k <= m + 1)%nat ->
  exists a', loop (fun j a => x <- bget tmp j ;; p <- usub m j ;; bput a p x) 0 k (repeat 0 (m + 1)) = Some a' /\ length a' = (m + 1)%nat /\
    forall j, (j < k)%nat -> nth_error a' (m - j) = nth_error tmp j.
Proof.
  intros Ek La.
  destruct (loop_inv (fun j a => x <- bget tmp j ;; p <- usub m j ;; bput a p x) (fun n b => length b = (m + 1)%nat /\ forall j, (j < n)%nat -> nth_error b (m - j) = nth_error tmp j) k 0 (repeat 0 (m + 1))) as (a' & E & P).
  - split; [apply repeat_length|]. intros; lia.
  - intros n b Hn [Lb Hb]. unfold bget. destruct (nth_error tmp n) as [x|] eqn:Ex; [|apply nth_error_None in Ex; lia]. cbn [bind].
    rewrite usub_ok by lia. cbn [bind]. rewrite bput_some by lia. eexists. split; [reflexivity|]. split; [rewrite lset_length; exact Lb|]. intros j Hj. rewrite lset_nth.
    destruct (Nat.eqb_spec (m - j) (m - n)) as [En|Nj].
    + rewrite (proj2 (Nat.ltb_lt (m - n) (length b))) by lia. assert (j = n) as -> by lia. symmetry. exact Ex.
    + apply Hb. destruct (Nat.eq_dec j n) as [->|]; [congruence|lia].
  - exists a'. split; [exact E|exact P].
Qed.

Lemma nth_err_rev (l : list K) i : (i < length l)%nat -> nth_error (rev l) i = nth_error l (length l - 1 - i).
Proof.
  intros H. rewrite (nth_error_nth' (rev l) 0) by (rewrite rev_length; exact H). rewrite (nth_error_nth' l 0) by lia. f_equal. rewrite rev_nth by exact H. f_equal. lia.
Qed.
Lemma firstn_nth_err (h k : list K) j : firstn (length k) h = k -> (j < length k)%nat -> nth_error h j = nth_error k j.
Proof.
  intros E H. assert (G : forall n (l : list K) i, (i < n)%nat -> nth_error (firstn n l) i = nth_error l i).
  { induction n as [|n IH]; intros l i Hi; [lia|]. destruct l as [|x l]; [reflexivity|]. destruct i as [|i]; cbn; [reflexivity|]. apply IH. lia. }
  rewrite <- (G (length k) h j H), E. reflexivity.
Qed.

(** There is exactly one full kernel, and unpacking stores it reversed. *)
Lemma unpack_sym (S : symmetry) (k h : list K) m : S <> nonsym -> full_kernel S k h -> length h = (m + 1)%nat -> (length k <= m + 1 <= 2 * length k)%nat ->
  unpack S m (length k) k = Some (rev h).
Proof.
  intros NS FK Lh Lk. assert (HH : firstn (length k) h = k /\ rev h = h) by (destruct S; [congruence| |]; destruct FK as (_ & A & B); split; assumption).
  destruct HH as [Hf Hr]. unfold unpack. destruct (unpack_bwd k m (length k) eq_refl ltac:(lia)) as (a & Ea & La & Pa). rewrite Ea. cbn [bind].
  destruct (unpack_fwd k a (length k) eq_refl ltac:(lia)) as (a' & Ea' & La' & Pa').
  assert (R : a' = rev h).
  { rewrite Hr. apply nth_error_ext. intros j. rewrite Pa'. destruct (Nat.ltb_spec j (length k)) as [H|H].
    - symmetry. apply firstn_nth_err; assumption.
    - destruct (Nat.lt_ge_cases j (m + 1)) as [H2|H2].
      + replace j with (m - (m - j))%nat at 1 by lia. rewrite Pa by lia. rewrite <- (firstn_nth_err h k (m - j) Hf) by lia.
        rewrite <- Hr at 2. rewrite nth_err_rev by lia. f_equal. lia.
      + rewrite (proj2 (nth_error_None a j)), (proj2 (nth_error_None h j)) by lia. reflexivity. }
  destruct S; [congruence| |]; rewrite Ea', R; reflexivity.
Qed.
Lemma unpack_non (k : list K) m : length k = (m + 1)%nat -> unpack nonsym m (length k) k = Some (rev k).
Proof.
  intros Lk. unfold unpack. destruct (unpack_bwd k m (length k) eq_refl ltac:(lia)) as (a & Ea & La & Pa). rewrite Ea. cbn [bind]. f_equal. apply nth_error_ext. intros j.
  destruct (Nat.lt_ge_cases j (m + 1)) as [H2|H2].
  - replace j with (m - (m - j))%nat at 1 by lia. rewrite Pa by lia. rewrite nth_err_rev by lia. f_equal. lia.
  - rewrite (proj2 (nth_error_None a j)), (proj2 (nth_error_None (rev k) j)) by (rewrite ?rev_length; lia). reflexivity.
Qed.

(** A full kernel exists. *)
Definition unfold_kernel (S : symmetry) (k : list K) : list K :=
  match S with nonsym => k | sym_even_len_odd => k ++ tl (rev k) | sym_even_len_even => k ++ rev k end.
Lemma full_exists S k : (0 < length k)%nat -> full_kernel S k (unfold_kernel S k).
Proof.
  intros H. destruct S; cbn [full_kernel unfold_kernel]; [reflexivity| |].
  - destruct (rev k) as [|z r] eqn:E; [assert (length (rev k) = 0%nat) by (rewrite E; reflexivity); rewrite rev_length in *; lia|]. cbn [tl].
    assert (Ek : k = rev r ++ [z]) by (rewrite <- (rev_involutive k), E; reflexivity).
    assert (Lr : length r = (length k - 1)%nat) by (assert (length (rev k) = S (length r)) by (rewrite E; reflexivity); rewrite rev_length in *; lia).
    split; [rewrite app_length; lia|]. split; [rewrite firstn_app, firstn_all, Nat.sub_diag; cbn; apply app_nil_r|].
    rewrite rev_app_distr. rewrite E. rewrite Ek at 1. cbn. rewrite <- app_assoc. reflexivity.
  - split; [rewrite app_length, rev_length; lia|]. split; [rewrite firstn_app, firstn_all, Nat.sub_diag; cbn; apply app_nil_r|]. rewrite rev_app_distr, rev_involutive. reflexivity.
Qed.
Lemma full_unique S (k h h' : list K) : (0 < length k)%nat -> full_kernel S k h -> full_kernel S k h' -> h = h'.
Proof.
  intros Hk F1 F2. destruct S; cbn in F1, F2; [congruence| |]; destruct F1 as (L1 & A1 & R1), F2 as (L2 & A2 & R2); apply nth_error_ext; intros j.
  all: destruct (Nat.lt_ge_cases j (length k)) as [H|H]; [rewrite (firstn_nth_err h k), (firstn_nth_err h' k) by assumption; reflexivity|].
  all: destruct (Nat.lt_ge_cases j (length h)) as [H2|H2]; [|rewrite (proj2 (nth_error_None h j)), (proj2 (nth_error_None h' j)) by lia; reflexivity].
  all: rewrite <- R1, <- R2, !nth_err_rev by lia; rewrite L1, L2; rewrite (firstn_nth_err h k), (firstn_nth_err h' k) by (assumption || lia); reflexivity.
Qed.

Lemma make_ok S kernel h i d f : full_kernel S kernel h -> make_fir S kernel i d = Some f ->
  good h [] f /\ input_size (base f) = i /\ decimation (base f) = d /\ output_size (base f) = ceil_div i d /\ kernel_ f = rev h.
Proof.
  intros FK E. unfold make_fir in E. destruct (make_backend S i (length kernel) d) as [b|] eqn:Eb; [|discriminate]. cbn [bind] in E.
  destruct (_ <? length kernel)%nat eqn:Hk; [|discriminate].
  unfold make_backend in Eb. destruct (order S (length kernel)) as [o|] eqn:Eo; [|discriminate]. cbn [bind] in Eb.
  destruct (usub o 1) as [m|] eqn:Em; [|discriminate]. cbn [bind] in Eb.
  destruct (0 <? i)%nat eqn:H1; [|discriminate]. destruct (0 <? d)%nat eqn:H2; [|discriminate]. destruct (d <? m + 1)%nat eqn:H3; [|discriminate]. destruct (m <=? i)%nat eqn:H4; [|discriminate].
  injection Eb as <-. cbn [order_] in E. apply Nat.ltb_lt in Hk, H1, H2, H3. apply Nat.leb_le in H4.
  unfold usub in Em. destruct (Nat.leb_spec 1 o) as [Ho|]; [|discriminate]. injection Em as Em.
  assert (Lh : length h = (m + 1)%nat /\ unpack S m (length kernel) kernel = Some (rev h)).
  { destruct S; cbn in Eo.
    - injection Eo as Eo. cbn in FK. subst h. split; [lia|]. apply unpack_non. lia.
    - unfold usub in Eo. destruct (Nat.leb_spec 1 (length kernel * 2)); [|discriminate]. injection Eo as Eo. pose proof FK as (L1 & _). split; [lia|]. apply unpack_sym; auto; try discriminate; lia.
    - injection Eo as Eo. pose proof FK as (L1 & _). split; [lia|]. apply unpack_sym; auto; try discriminate; lia. }
  destruct Lh as [Lh Eu]. rewrite Eu in E. cbn [bind] in E. injection E as <-. cbn [base input_size decimation output_size kernel_].
  split; [|repeat split; reflexivity]. constructor; cbn [base input_size decimation output_size order_ kernel_ skip_ state_ state_saved_]; try lia; try reflexivity.
  - apply repeat_length.
  - exists 0%nat. reflexivity.
  - exists 0%nat. reflexivity.
  - left. auto.
Qed.
Lemma make_some S (kernel h : list K) i d : full_kernel S kernel h -> (0 < length kernel)%nat -> (1 < length kernel \/ S <> nonsym)%nat ->
  (0 < i)%nat -> (0 < d < length h)%nat -> (length h <= i + 1)%nat -> exists f, make_fir S kernel i d = Some f.
Proof.
  intros FK Hk0 Hk Hi Hd Hl. unfold make_fir, make_backend.
  assert (Eo : order S (length kernel) = Some (length h)).
  { destruct S; cbn in *; [subst h; reflexivity| |]; destruct FK as (L1 & _); rewrite L1; [|f_equal; lia]. rewrite usub_ok by lia. f_equal. lia. }
  rewrite Eo. cbn [bind]. rewrite usub_ok by lia. cbn [bind]. rewrite assert_true by (apply Nat.ltb_lt; lia). rewrite assert_true by (apply Nat.ltb_lt; lia).
  rewrite assert_true by (apply Nat.ltb_lt; lia). rewrite assert_true by (apply Nat.leb_le; lia). cbn [bind order_].
  rewrite assert_true by (apply Nat.ltb_lt; destruct S; [destruct Hk; [lia|congruence]|lia|lia]).
  assert (Eu : unpack S (length h - 1) (length kernel) kernel = Some (rev h)).
  { destruct S.
    - cbn in FK. subst h. apply unpack_non. lia.
    - pose proof FK as (L1 & _). apply unpack_sym; auto; try discriminate; lia.
    - pose proof FK as (L1 & _). apply unpack_sym; auto; try discriminate; lia. }
  rewrite Eu. cbn [bind]. eexists. reflexivity.
Qed.

Lemma reset_good h x f : good h x f -> good h [] (reset f).
Proof.
  intros G. destruct G. constructor; cbn [reset base skip_ kernel_ state_ state_saved_]; try assumption; try lia.
  - rewrite repeat_length. assumption.
  - exists 0%nat. reflexivity.
  - exists 0%nat. reflexivity.
  - left. auto.
Qed.
End F.

Lemma address_ok p stride len k : k < len -> strided_address p stride len k = Some (p + Z.of_nat k * stride)%Z.
Proof.
  intros H. unfold strided_address. destruct (Z.ltb_spec 0 stride) as [S|S].
  - rewrite assert_true; [f_equal; lia|]. apply andb_true_iff. rewrite Z.leb_le, Z.ltb_lt. rewrite Z.abs_eq by lia. split; [lia|].
    assert (Z.of_nat k * stride <= (Z.of_nat len - 1) * stride)%Z by (apply Z.mul_le_mono_nonneg_r; lia). lia.
  - rewrite assert_true; [f_equal; lia|]. apply andb_true_iff. rewrite Z.leb_le, Z.ltb_lt. rewrite Z.abs_neq by lia. split; [|lia].
    assert (Z.of_nat k * - stride <= (Z.of_nat len - 1) * - stride)%Z by (apply Z.mul_le_mono_nonneg_r; lia). lia.
Qed.

Section Runs.
Context {K : CRing}.
Lemma pieces S (kernel h : list K) i d f calls : full_kernel S kernel h -> make_fir S kernel i d = Some f ->
  Forall (fun c => length (fst c) = i /\ length (snd c) = ceil_div i d) calls ->
  exists f' r, run true f calls = Some (f', r) /\
    outputs r = map (fun q => conv_at h (flat_map fst calls) (q * d)) (seq 0 (ceil_div (length (flat_map fst calls)) d)) /\
    Forall2 (fun c o => length (fst o) = length (snd c) /\ snd o <= output_size (base f) /\ (i mod d = 0 -> snd o = output_size (base f)) /\
                      forall q, snd o <= q -> nth_error (fst o) q = nth_error (snd c) q) calls r /\
    (exists x, good h x f').
Proof.
  intros FK M Fc. destruct (make_ok S kernel h i d f FK M) as (G & Ei & Ed & Eo & _).
  destruct (run_ok h calls [] f G) as (f' & r & E & G' & _ & F2 & Out); [rewrite Ei, Eo; exact Fc|].
  cbn zeta in *. cbn [app length] in *. exists f', r. split; [exact E|]. rewrite Ei, Ed in *. 
  assert (S0 : skip_ f = 0). { destruct (gd_saved _ _ _ G) as [(_ & H & _)|(H1 & H2 & _)]; [exact H|]. cbn in H2. pose proof (gd_skip _ _ _ G). pose proof (gd_d _ _ _ G). lia. }
  destruct (Out 0) as [O1 O2]; [rewrite S0; reflexivity|]. cbn [Nat.add] in O1, O2.
  pose proof (gd_d _ _ _ G) as [Dp _]. rewrite Ed in Dp.
  rewrite (ceil_unique (length (outputs r)) d (length (flat_map fst calls))) in O1 by lia.
  split; [exact O1|]. split; [exact F2|]. eexists. exact G'.
Qed.
Lemma no_save S (kernel h : list K) i d f calls : full_kernel S kernel h -> make_fir S kernel i d = Some f ->
  Forall (fun c => length (fst c) = i /\ length (snd c) = ceil_div i d) calls ->
  exists r, run false f calls = Some (f, r) /\
    Forall2 (fun c o => snd o = ceil_div i d /\ fst o = map (fun q => conv_at h (fst c) (q * d)) (seq 0 (ceil_div i d))) calls r.
Proof.
  intros FK M Fc. destruct (make_ok S kernel h i d f FK M) as (G & Ei & Ed & Eo & _).
  assert (S0 : skip_ f = 0). { destruct (gd_saved _ _ _ G) as [(_ & H & _)|(H1 & H2 & _)]; [exact H|]. cbn in H2. pose proof (gd_skip _ _ _ G). pose proof (gd_d _ _ _ G). lia. }
  pose proof (gd_d _ _ _ G) as [Dp _]. rewrite Ed in Dp.
  induction Fc as [|[b out] calls [Lb Lo] Fr IH].
  - exists []. split; [reflexivity|constructor].
  - cbn [fst snd] in Lb, Lo. destruct IH as (r & Er & F2). cbn [run]. unfold filter. rewrite Ei, Eo. rewrite assert_true by (apply Nat.eqb_eq; exact Lb). rewrite assert_true by (apply Nat.eqb_eq; exact Lo).
    destruct (apply_ok false h [] f b out G ltac:(congruence) ltac:(congruence) ltac:(reflexivity)) as (f1 & o1 & n1 & E & _ & F1 & L1 & N1 & Old & New & Cnt).
    rewrite E. cbn [bind]. rewrite (F1 eq_refl), Er. cbn [bind fst snd]. exists ((o1, n1) :: r). split; [reflexivity|]. constructor; [|exact F2]. cbn [fst snd].
    rewrite Ei, Ed, S0 in *. cbn [Nat.add app length] in *.
    assert (En : n1 = ceil_div i d) by (apply ceil_unique; lia). split; [exact En|].
    apply nth_error_ext. intros q. rewrite nth_error_map_seq. destruct (Nat.ltb_spec q (ceil_div i d)) as [Hq|Hq].
    + rewrite <- En in Hq. apply New. exact Hq.
    + apply nth_error_None. lia.
Qed.
Lemma after_reset S (kernel h : list K) i d f calls f1 r1 : full_kernel S kernel h -> make_fir S kernel i d = Some f ->
  Forall (fun c => length (fst c) = i /\ length (snd c) = ceil_div i d) calls -> run true f calls = Some (f1, r1) -> reset f1 = f.
Proof.
  intros FK M Fc R. destruct (pieces S kernel h i d f calls FK M Fc) as (f' & r & E & _ & _ & _). 
  destruct (make_ok S kernel h i d f FK M) as (G & Ei & Ed & Eo & _).
  assert (X : forall calls (g g' : fir K) r, run true g calls = Some (g', r) -> base g' = base g /\ kernel_ g' = kernel_ g).
  { clear. induction calls as [|[b out] calls IH]; intros g g' r E; cbn [run] in E; [injection E as <- _; auto|].
    destruct (filter true g b out) as [[[g1 o1] n1]|] eqn:Ef; [|discriminate]. cbn [bind] in E. destruct (run true g1 calls) as [[g2 r2]|] eqn:E2; [|discriminate]. cbn [bind fst snd] in E. injection E as <- _.
    destruct (IH _ _ _ E2) as [-> ->]. unfold filter in Ef. destruct (_ =? _); [|discriminate]. destruct (_ =? _); [|discriminate]. unfold apply in Ef.
    destruct (usub _ _); [|discriminate]. cbn [bind] in Ef. destruct (while _ _ _ _) as [[[? ?] ?]|]; [|discriminate]. cbn [bind] in Ef. destruct (usub _ _); [|discriminate]. cbn [bind] in Ef.
    destruct (while _ _ _ _) as [[[? ?] ?]|]; [|discriminate]. cbn [bind] in Ef. destruct (usub _ _); [|discriminate]. cbn [bind] in Ef. destruct (_ || _); [|discriminate].
    destruct (usub _ _); [|discriminate]. cbn [bind] in Ef. destruct (sub _ _ _); [|discriminate]. cbn [bind] in Ef. destruct (_ <=? _); [|discriminate]. injection Ef as <- _ _. auto. }
  destruct (X _ _ _ _ R) as [B Kq]. destruct (pieces S kernel h i d f calls FK M Fc) as (f2 & r2 & E2 & _ & _ & (x & G2)). rewrite R in E2. injection E2 as <- <-.
  unfold reset. rewrite B, Kq, (gd_st _ _ _ G2), B. 
  unfold make_fir in M. destruct (make_backend _ _ _ _) as [b|]; [|discriminate]. cbn [bind] in M. destruct (_ <? _); [|discriminate]. destruct (unpack _ _ _ _); [|discriminate]. cbn [bind] in M. injection M as <-. reflexivity.
Qed.
End Runs.
