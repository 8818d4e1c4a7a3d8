(** Proofs about the IIR filter. *)
From Coq Require Import ZArith List Lia Bool Arith.
From Verif Require Import Base Iir.
Import ListNotations.
Local Open Scope nat_scope.

Section I.
Context {K : CRing}.
Add Ring Kring : (r_th K).
Local Open Scope cr_scope.

(** Coefficients and state of a section as tuples. *)
Record coef := { c0 : K; c1 : K; c2 : K; d1 : K; d2 : K }.
Definition st := (K * K)%type.
Definition wn (c : coef) (w : st) (x : K) : K := x - d1 c * fst w - d2 c * snd w.
Definition step (c : coef) (w : st) (x : K) : K * st := (c0 c * wn c w x + c1 c * fst w + c2 c * snd w, (wn c w x, fst w)).
Fixpoint proc (cs : list coef) (ws : list st) (x : K) : K * list st :=
  match cs, ws with
  | c :: cs', w :: ws' => let r := step c w x in let q := proc cs' ws' (fst r) in (fst q, snd r :: snd q)
  | _, _ => (x, [])
  end.
Fixpoint procs (cs : list coef) (ws : list st) (xs : list K) : list K * list st :=
  match xs with [] => ([], ws) | x :: xs' => let r := proc cs ws x in let q := procs cs (snd r) xs' in (fst r :: fst q, snd q) end.

Definition bmat (cs : list coef) : matrix := map (fun c => [c0 c; c1 c; c2 c]) cs.
Definition amat (cs : list coef) : matrix := map (fun c => [d1 c; d2 c]) cs.
Definition wmat (ws : list st) : @matrix K := map (fun w => [fst w; snd w]) ws.

Lemma proc_len cs : forall ws x, length ws = length cs -> length (snd (proc cs ws x)) = length cs.
Proof. induction cs as [|c cs IH]; intros [|w ws] x L; cbn in *; try lia. rewrite IH; lia. Qed.
Lemma proc_snoc cs : forall ws x c w, length ws = length cs ->
  proc (cs ++ [c]) (ws ++ [w]) x = (fst (step c w (fst (proc cs ws x))), snd (proc cs ws x) ++ [snd (step c w (fst (proc cs ws x)))]).
Proof.
  induction cs as [|c' cs IH]; intros [|w' ws] x c w L; try discriminate; [reflexivity|]. cbn [app proc]. rewrite IH by (cbn in L; lia). reflexivity.
Qed.

Lemma get3 cs m c k : nth_error cs m = Some c -> (k < 3)%nat -> mget (bmat cs) m k = nth_error [c0 c; c1 c; c2 c] k.
Proof. intros E H. unfold mget, bmat, bget. rewrite nth_error_map, E. reflexivity. Qed.
Lemma get2 cs m c k : nth_error cs m = Some c -> (k < 2)%nat -> mget (amat cs) m k = nth_error [d1 c; d2 c] k.
Proof. intros E H. unfold mget, amat, bget. rewrite nth_error_map, E. reflexivity. Qed.
Lemma nth_mid {A} (l1 l2 : list A) x m : m = length l1 -> nth_error (l1 ++ x :: l2) m = Some x.
Proof. intros ->. rewrite nth_error_app2, Nat.sub_diag by lia. reflexivity. Qed.
Lemma lset_mid {A} (l1 l2 : list A) x y m : m = length l1 -> lset (l1 ++ x :: l2) m y = l1 ++ y :: l2.
Proof. intros ->. induction l1 as [|z l1 IH]; cbn; [reflexivity|]. rewrite IH. reflexivity. Qed.
Lemma section_ok cs m c (l1 l2 : list st) w v : nth_error cs m = Some c -> m = length l1 ->
  section_step (bmat cs) (amat cs) m (v, wmat (l1 ++ w :: l2)) = Some (fst (step c w v), wmat (l1 ++ snd (step c w v) :: l2)).
Proof.
  intros E Hm. unfold section_step. rewrite !(get2 cs m c), !(get3 cs m c) by (assumption || lia). cbn [nth_error bind].
  assert (G : forall k, mget (wmat (l1 ++ w :: l2)) m k = nth_error [fst w; snd w] k).
  { intros k. unfold mget, wmat, bget. rewrite nth_error_map, nth_mid by exact Hm. reflexivity. }
  rewrite !G. cbn [nth_error bind].
  assert (Lm : length (wmat (l1 ++ w :: l2)) = (m + S (length l2))%nat) by (unfold wmat; rewrite map_length, app_length; cbn; lia).
  unfold mput at 1. unfold bget at 1. unfold wmat at 1. rewrite nth_error_map, nth_mid by exact Hm. cbn [option_map bind bput length Nat.ltb Nat.leb lset].
  rewrite bput_some by lia. cbn [bind]. unfold wmat at 1. rewrite map_app. cbn [map]. rewrite lset_mid by (rewrite map_length; exact Hm).
  unfold mput, bget. rewrite nth_mid by (rewrite map_length; exact Hm). cbn [option_map bind bput length Nat.ltb Nat.leb lset].
  rewrite bput_some by (rewrite app_length, map_length; cbn; lia). cbn [bind]. rewrite lset_mid by (rewrite map_length; exact Hm).
  unfold wmat, step. rewrite map_app. cbn [map fst snd]. reflexivity.
Qed.
Lemma sections_ok cs ws x : length ws = length cs ->
  loop (section_step (bmat cs) (amat cs)) 0 (length (amat cs)) (x, wmat ws) = Some (fst (proc cs ws x), wmat (snd (proc cs ws x))).
Proof.
  intros L.
  destruct (loop_inv (section_step (bmat cs) (amat cs))
    (fun m s => let r := proc (firstn m cs) (firstn m ws) x in s = (fst r, wmat (snd r ++ skipn m ws))) (length (amat cs)) 0 (x, wmat ws)) as (s & E & P).
  - reflexivity.
  - intros m s Hm ->. cbn zeta. unfold amat in Hm. rewrite map_length in Hm. cbn [Nat.add] in Hm.
    destruct (nth_error cs m) as [c|] eqn:Ec; [|apply nth_error_None in Ec; lia].
    destruct (nth_error ws m) as [w|] eqn:Ew; [|apply nth_error_None in Ew; lia].
    assert (FS : forall A (l : list A) y, nth_error l m = Some y -> firstn (m + 1) l = firstn m l ++ [y] /\ skipn m l = y :: skipn (m + 1) l).
    { intros A l. clear. revert l. induction m as [|m IH]; intros [|z l] y E; try discriminate; cbn in *; [injection E as <-; auto|]. destruct (IH l y E) as [-> ->]. auto. }
    destruct (FS _ cs c Ec) as [F1 _]. destruct (FS _ ws w Ew) as [F2 S2]. rewrite S2.
    assert (L1 : length (firstn m ws) = length (firstn m cs)) by (rewrite !firstn_length; lia).
    rewrite (section_ok cs m c _ _ w) by (exact Ec || (rewrite proc_len by exact L1; rewrite firstn_length; lia)).
    eexists. split; [reflexivity|]. rewrite F1, F2, proc_snoc by exact L1. cbn [fst snd]. rewrite <- app_assoc. reflexivity.
  - rewrite E. cbn zeta in P. unfold amat in P. rewrite map_length in P. cbn [Nat.add] in P. rewrite P.
    rewrite !firstn_all2, skipn_all2, app_nil_r by lia. reflexivity.
Qed.

Lemma procs_app cs : forall xs ys ws, procs cs ws (xs ++ ys) = (fst (procs cs ws xs) ++ fst (procs cs (snd (procs cs ws xs)) ys), snd (procs cs (snd (procs cs ws xs)) ys)).
Proof. induction xs as [|x xs IH]; intros ys ws; cbn [app procs fst snd]; [destruct (procs cs ws ys); reflexivity|]. rewrite IH. reflexivity. Qed.
Lemma procs_out_len cs : forall xs ws, length (fst (procs cs ws xs)) = length xs.
Proof. induction xs as [|x xs IH]; intros ws; cbn; [reflexivity|]. rewrite IH. reflexivity. Qed.
Lemma procs_st_len cs : forall xs ws, length ws = length cs -> length (snd (procs cs ws xs)) = length cs.
Proof. induction xs as [|x xs IH]; intros ws L; cbn; [exact L|]. apply IH. apply proc_len. exact L. Qed.

Definition mk cs ws n : iir K := {| b_ := bmat cs; a_ := amat cs; w_ := wmat ws; input_size := n |}.

Lemma split_at {A} i : forall (l : list A) y, nth_error l i = Some y -> firstn (i + 1) l = firstn i l ++ [y] /\ skipn i l = y :: skipn (i + 1) l.
Proof. induction i as [|m IH]; intros [|z l] y E; try discriminate; cbn in *; [injection E as <-; auto|]. destruct (IH l y E) as [-> ->]. auto. Qed.
Definition zeros (n : nat) : list st := repeat (0, 0) n.
Lemma wmat_zeros (ws : list st) : map (fun _ => [0; 0]) (wmat ws) = wmat (zeros (length ws)).
Proof. unfold wmat, zeros. induction ws as [|z ws IH]; cbn; [reflexivity|]. f_equal. exact IH. Qed.

Lemma filter_on_ok (cur : list K -> list K) save cs ws n data out : length ws = length cs -> length data = n -> length out = n ->
  (cur out = data) -> (forall i o, (i < n)%nat -> length o = n -> skipn i o = skipn i out -> nth_error (cur o) i = nth_error data i) ->
  filter_on cur save (mk cs ws n) out =
    Some (mk cs (if save then snd (procs cs ws data) else zeros (length cs)) n, fst (procs cs ws data)).
Proof.
  intros L Ld Lo C0 C1. unfold filter_on. cbn [mk input_size a_ b_ w_]. rewrite C0, Ld, Lo, Nat.eqb_refl.
  match goal with |- (r <- loop ?F _ _ _ ;; _) = _ =>
    destruct (loop_inv F (fun i s => let r := procs cs ws (firstn i data) in s = (wmat (snd r), fst r ++ skipn i out)) n 0 (wmat ws, out)) as (s & E & P) end.
  - reflexivity.
  - intros i s Hi ->. cbn zeta. cbn [Nat.add] in Hi.
    assert (Lp : i = length (fst (procs cs ws (firstn i data)))) by (rewrite procs_out_len, firstn_length; lia).
    unfold bget. rewrite C1; [|lia|rewrite app_length, skipn_length; lia|rewrite skipn_app, <- Lp, Nat.sub_diag, skipn_all2 by lia; reflexivity].
    destruct (nth_error data i) as [x|] eqn:Ex; [|apply nth_error_None in Ex; lia]. cbn [bind].
    rewrite sections_ok by (apply procs_st_len; exact L). cbn [bind fst snd].
    destruct (nth_error out i) as [o|] eqn:Eo; [|apply nth_error_None in Eo; lia].
    destruct (split_at i _ _ Ex) as [F1 _]. destruct (split_at i _ _ Eo) as [_ F2]. rewrite F2.
    rewrite bput_some by (rewrite app_length, <- Lp; cbn; lia). cbn [bind]. rewrite lset_mid by exact Lp. eexists. split; [reflexivity|].
    rewrite F1, procs_app. cbn [procs fst snd]. rewrite <- app_assoc. reflexivity.
  - rewrite E. cbn zeta in P. cbn [Nat.add] in P. rewrite P. cbn [bind fst snd]. rewrite firstn_all2, skipn_all2, app_nil_r by lia.
    destruct save; [reflexivity|]. unfold reset, mk. cbn [b_ a_ w_ input_size]. rewrite wmat_zeros, procs_st_len by exact L. reflexivity.
Qed.
Lemma filter_ok save cs ws n data out : length ws = length cs -> length data = n -> length out = n ->
  filter save (mk cs ws n) data out = Some (mk cs (if save then snd (procs cs ws data) else zeros (length cs)) n, fst (procs cs ws data)).
Proof. intros L Ld Lo. apply filter_on_ok; auto. Qed.
Lemma in_place_ok save cs ws n v : length ws = length cs -> length v = n ->
  filter_in_place save (mk cs ws n) v = Some (mk cs (if save then snd (procs cs ws v) else zeros (length cs)) n, fst (procs cs ws v)).
Proof.
  intros L Lv. apply filter_on_ok; auto. intros i o Hi Lo Es.
  rewrite <- (firstn_skipn i o), <- (firstn_skipn i v), Es, !nth_error_app2 by (rewrite firstn_length; lia). rewrite !firstn_length. f_equal. lia.
Qed.

(** Sample by sample = section by section. *)
Fixpoint row (c : coef) (w : st) (xs : list K) : list K * st :=
  match xs with [] => ([], w) | x :: xs' => let r := step c w x in let q := row c (snd r) xs' in (fst r :: fst q, snd q) end.
Lemma procs_row c cs : forall xs w ws, length ws = length cs ->
  procs (c :: cs) (w :: ws) xs = (fst (procs cs ws (fst (row c w xs))), snd (row c w xs) :: snd (procs cs ws (fst (row c w xs)))).
Proof. induction xs as [|x xs IH]; intros w ws L; [reflexivity|]. cbn [procs row proc fst snd]. rewrite IH by (rewrite proc_len; lia). reflexivity. Qed.
Lemma procs_nil : forall xs, procs [] [] xs = (xs, []).
Proof. induction xs as [|x xs IH]; [reflexivity|]. cbn [procs proc fst snd]. rewrite IH. reflexivity. Qed.

Lemma row_snoc c : forall xs w x, row c w (xs ++ [x]) = (fst (row c w xs) ++ [fst (step c (snd (row c w xs)) x)], snd (step c (snd (row c w xs)) x)).
Proof. induction xs as [|y xs IH]; intros w x; [reflexivity|]. cbn [app row fst snd]. rewrite IH. reflexivity. Qed.
Lemma row_len c : forall xs w, length (fst (row c w xs)) = length xs.
Proof. induction xs as [|y xs IH]; intros w; [reflexivity|]. cbn. rewrite IH. reflexivity. Qed.

Lemma delayed_old (l : list K) x n k : (n < length l)%nat -> delayed (l ++ [x]) n k = delayed l n k.
Proof. intros H. unfold delayed. destruct (Nat.leb_spec k n); [|reflexivity]. rewrite app_nth1 by lia. reflexivity. Qed.
Lemma delayed_snoc (l : list K) x n k : n = length l -> (0 < k)%nat -> delayed (l ++ [x]) n k = delayed l n k.
Proof. intros -> H. unfold delayed. destruct (Nat.leb_spec k (length l)); [|reflexivity]. rewrite app_nth1 by lia. reflexivity. Qed.
Lemma delayed_shift (l : list K) n k : delayed l (S n) (S k) = delayed l n k.
Proof. reflexivity. Qed.
Lemma delayed_here (l : list K) x n : n = length l -> delayed (l ++ [x]) n 0 = x.
Proof. intros ->. unfold delayed. cbn [Nat.leb]. rewrite Nat.sub_0_r, app_nth2, Nat.sub_diag by lia. reflexivity. Qed.

Definition bl (c : coef) := [c0 c; c1 c; c2 c].
Definition al (c : coef) := [d1 c; d2 c].
Lemma row_inv c : forall xs, let r := row c (0, 0) xs in let n := length xs in
  difference_equation (bl c) (al c) xs (fst r) /\
  exists w3 w4, delayed xs n 1 = fst (snd r) + d1 c * snd (snd r) + d2 c * w3 /\ delayed xs n 2 = snd (snd r) + d1 c * w3 + d2 c * w4 /\
    delayed (fst r) n 1 = c0 c * fst (snd r) + c1 c * snd (snd r) + c2 c * w3 /\ delayed (fst r) n 2 = c0 c * snd (snd r) + c1 c * w3 + c2 c * w4.
Proof.
  induction xs as [|x xs IH] using rev_ind; cbn zeta in *.
  { split; [split; [reflexivity|]; cbn; lia|]. exists 0, 0. cbn. repeat split; ring. }
  destruct IH as [[Ly D] (w3 & w4 & X1 & X2 & Y1 & Y2)]. rewrite row_snoc. cbn [fst snd]. rewrite app_length. cbn [length]. rewrite Nat.add_1_r.
  destruct (row c (0, 0) xs) as [ys [u1 u2]]. cbn [fst snd] in *. unfold step. cbn [fst snd]. split.
  - split; [rewrite !app_length; cbn; lia|]. intros n. rewrite app_length. cbn [length]. intros Hn. unfold bl, al. cbn [nth].
    destruct (Nat.eq_dec n (length xs)) as [->|Hne].
    + rewrite !delayed_here, !delayed_snoc by lia. rewrite X1, X2, Y1, Y2. unfold wn. cbn [fst snd]. ring.
    + rewrite !delayed_old by lia. apply (D n). lia.
  - exists u2, w3. rewrite !delayed_shift. rewrite !delayed_here, !delayed_snoc by lia. rewrite X1, Y1. unfold wn. cbn [fst snd]. repeat split; ring.
Qed.
Lemma procs_cascade : forall cs xs, cascade (bmat cs) (amat cs) xs (fst (procs cs (zeros (length cs)) xs)).
Proof.
  induction cs as [|c cs IH]; intros xs; cbn [bmat amat map cascade length].
  - unfold zeros. cbn [repeat]. rewrite procs_nil. reflexivity.
  - unfold zeros. cbn [repeat]. rewrite procs_row by apply repeat_length. cbn [fst]. eexists. split; [apply (row_inv c xs)|]. apply IH.
Qed.

(** The difference equation has exactly one solution. *)
Lemma de_unique b a x y y' : difference_equation b a x y -> difference_equation (K := K) b a x y' -> y = y'.
Proof.
  intros [L D] [L' D']. assert (P : forall n m, (m < n)%nat -> (m < length x)%nat -> nth m y 0 = nth m y' 0).
  { induction n as [|n IH]; intros m Hm Hx; [lia|]. specialize (D m Hx). specialize (D' m Hx). rewrite <- D' in D. clear D'.
    assert (E1 : delayed y m 1 = delayed y' m 1). { unfold delayed. destruct (Nat.leb_spec 1 m); [apply IH; lia|reflexivity]. }
    assert (E2 : delayed y m 2 = delayed y' m 2). { unfold delayed. destruct (Nat.leb_spec 2 m); [apply IH; lia|reflexivity]. }
    rewrite E1, E2 in D. unfold delayed in D at 1 4. cbn [Nat.leb] in D. rewrite Nat.sub_0_r in D.
    transitivity (nth m y 0 + nth 0 a 0 * delayed y' m 1 + nth 1 a 0 * delayed y' m 2 - (nth 0 a 0 * delayed y' m 1 + nth 1 a 0 * delayed y' m 2)); [ring|].
    rewrite D. ring. }
  apply nth_ext with (d := 0) (d' := 0); [lia|]. intros n Hn. apply (P (S n)); lia.
Qed.
Lemma cascade_unique : forall b a x y y', cascade b a x y -> cascade (K := K) b a x y' -> y = y'.
Proof.
  induction b as [|br b IH]; intros [|ar a] x y y'; cbn; try tauto; [congruence|].
  intros (z & D & C) (z' & D' & C'). rewrite (de_unique br ar x z z' D D') in C. eauto.
Qed.

(** Every constructible filter has the shape [mk]. *)
Lemma make_ok b a n f : make_iir b a n = Some f -> exists cs, b = bmat cs /\ a = amat cs /\ f = mk cs (zeros (length cs)) n.
Proof.
  unfold make_iir. destruct (Nat.eqb_spec (length b) (length a)) as [L|]; [|discriminate]. cbn [bind].
  destruct (forallb _ b) eqn:Fb; [|discriminate]. destruct (forallb _ a) eqn:Fa; [|discriminate]. intros [= <-].
  assert (X : exists cs, b = bmat cs /\ a = amat cs).
  { revert a L Fa. induction b as [|br b IH]; intros [|ar a] L Fa; try discriminate; [exists []; auto|]. cbn in *.
    apply andb_prop in Fb as [F1 F2]. apply andb_prop in Fa as [G1 G2]. injection L as L. destruct (IH F2 a L G2) as (cs & -> & ->).
    destruct br as [|x0 [|x1 [|x2 [|]]]]; try discriminate. destruct ar as [|y1 [|y2 [|]]]; try discriminate.
    exists ({| c0 := x0; c1 := x1; c2 := x2; d1 := y1; d2 := y2 |} :: cs). auto. }
  destruct X as (cs & -> & ->). exists cs. repeat split; auto. unfold mk. f_equal. unfold bmat, wmat, zeros. rewrite map_length.
  induction cs as [|c cs IH]; cbn; [reflexivity|]. f_equal. apply IH. all: cbn in *; auto.
Qed.
Lemma make_some b a n : length b = length a -> Forall (fun r => length r = 3) b -> Forall (fun r => length r = 2) a -> exists f, @make_iir K b a n = Some f.
Proof.
  intros L Fb Fa. unfold make_iir. rewrite L, Nat.eqb_refl. cbn [bind]. rewrite (proj2 (forallb_forall _ b)), (proj2 (forallb_forall _ a)).
  - eauto.
  - rewrite Forall_forall in Fa. intros r H. apply Nat.eqb_eq. auto.
  - rewrite Forall_forall in Fb. intros r H. apply Nat.eqb_eq. auto.
Qed.

Lemma run_save cs n : forall calls ws, length ws = length cs -> Forall (fun c => length (fst c) = n /\ length (snd c) = n) calls ->
  exists r, run true (mk cs ws n) calls = Some (mk cs (snd (procs cs ws (flat_map fst calls))) n, r) /\ concat r = fst (procs cs ws (flat_map fst calls)) /\
    Forall2 (fun c o => length o = length (fst c)) calls r.
Proof.
  induction calls as [|[data out] calls IH]; intros ws L F.
  - exists []. cbn. auto.
  - inversion F as [|? ? [F1 F2] F3]. subst. cbn [fst snd] in *. cbn [run]. rewrite filter_ok by auto. cbn [bind fst snd].
    destruct (IH (snd (procs cs ws data))) as (r & E & C & F2'); [apply procs_st_len; exact L|exact F3|]. rewrite E. cbn [bind fst snd]. eexists. split.
    + cbn [flat_map fst]. rewrite procs_app. reflexivity.
    + cbn [flat_map fst concat]. rewrite procs_app, C. split; [reflexivity|]. constructor; [apply procs_out_len|exact F2'].
Qed.
Lemma run_nosave cs n : forall calls, Forall (fun c => length (fst c) = n /\ length (snd c) = n) calls ->
  run false (mk cs (zeros (length cs)) n) calls = Some (mk cs (zeros (length cs)) n, map (fun c => fst (procs cs (zeros (length cs)) (fst c))) calls).
Proof.
  induction calls as [|[data out] calls IH]; intros F; [reflexivity|].
  inversion F as [|? ? [F1 F2] F3]. subst. cbn [fst snd] in *. cbn [run]. rewrite filter_ok by (auto; apply repeat_length). cbn [bind fst snd]. rewrite IH by exact F3. reflexivity.
Qed.

Lemma zlen cs : length (zeros (length (A := coef) cs)) = length cs.
Proof. apply repeat_length. Qed.
Theorem pieces (b a : @matrix K) n f calls : make_iir b a n = Some f -> Forall (fun c => length (fst c) = n /\ length (snd c) = n) calls ->
  exists f' r, run true f calls = Some (f', r) /\ cascade b a (flat_map fst calls) (concat r) /\ Forall2 (fun c o => length o = length (fst c)) calls r.
Proof.
  intros M F. destruct (make_ok b a n f M) as (cs & -> & -> & ->). destruct (run_save cs n calls (zeros (length cs)) (zlen cs) F) as (r & E & C & F2).
  eexists _, r. split; [exact E|]. rewrite C. split; [apply procs_cascade|exact F2].
Qed.
Theorem no_save (b a : @matrix K) n f calls : make_iir b a n = Some f -> Forall (fun c => length (fst c) = n /\ length (snd c) = n) calls ->
  exists r, run false f calls = Some (f, r) /\ Forall2 (fun c o => cascade b a (fst c) o) calls r.
Proof.
  intros M F. destruct (make_ok b a n f M) as (cs & -> & -> & ->). rewrite run_nosave by exact F. eexists. split; [reflexivity|].
  clear F M. induction calls as [|c calls IH]; cbn; constructor; [apply procs_cascade|exact IH].
Qed.
Theorem after_reset (b a : @matrix K) n f calls f1 r1 : make_iir b a n = Some f -> Forall (fun c => length (fst c) = n /\ length (snd c) = n) calls ->
  run true f calls = Some (f1, r1) -> reset f1 = f.
Proof.
  intros M F E. destruct (make_ok b a n f M) as (cs & -> & -> & ->). destruct (run_save cs n calls (zeros (length cs)) (zlen cs) F) as (r & E' & _).
  rewrite E' in E. injection E as <- _. unfold reset, mk. cbn [b_ a_ w_ input_size]. rewrite wmat_zeros, procs_st_len by apply zlen. reflexivity.
Qed.
Theorem in_place (b a : @matrix K) n f calls f1 r1 save v out : make_iir b a n = Some f -> Forall (fun c => length (fst c) = n /\ length (snd c) = n) calls ->
  run true f calls = Some (f1, r1) -> length v = n -> length out = n -> filter_in_place save f1 v = filter save f1 v out.
Proof.
  intros M F E Lv Lo. destruct (make_ok b a n f M) as (cs & -> & -> & ->). destruct (run_save cs n calls (zeros (length cs)) (zlen cs) F) as (r & E' & _).
  rewrite E' in E. injection E as <- _. rewrite in_place_ok, filter_ok; auto; apply procs_st_len, zlen.
Qed.
End I.
