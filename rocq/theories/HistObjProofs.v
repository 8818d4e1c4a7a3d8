(** Proofs about the life of histograms. *)
From Coq Require Import ZArith QArith List Lia Bool Arith.
From Verif Require Import Base Histo HistoProofs FiltObj FiltObjProofs HistObj.
Import ListNotations.
Local Open Scope nat_scope.

Definition refs (hs : list (option handle)) (b : nat) : nat := cnt (fun h => one b (blk h)) hs.
Definition rinv (st : hstate) : Prop := forall b,
  match at_ (cells st) b with Some x => 0 < fst x /\ fst x = refs (hvars st) b | None => refs (hvars st) b = 0 end.
Definition content (st : hstate) (b : nat) : option (list Z) := option_map snd (at_ (cells st) b).
Definition objb (hs : list (option handle)) (u : nat) : option nat :=
  match at_ hs u with Some (Obj _ _ b) => Some b | _ => None end.

Definition fits (C : nat -> option (list Z)) (B : nat -> option nat) (h : option handle) (t : option thing) : Prop :=
  match h, t with
  | None, None => True
  | Some (Obj mn mx b), Some (Hist mn' mx' n l) => mn = mn' /\ mx = mx' /\ 3 <= n /\ (mn < mx)%Q /\ C b = Some (counts mn mx n l)
  | Some (Res b), Some (Counts c f a) =>
      (a = false -> C b = Some c) /\ match f with Some u => B u = Some b | None => forall u, B u <> Some b end
  | _, _ => False
  end.
Definition agr (C : nat -> option (list Z)) (hs : list (option handle)) (s : list (option thing)) : Prop :=
  length hs = length s /\ (forall v, fits C (objb hs) (at_ hs v) (at_ s v)) /\
  (forall u u' b, objb hs u = Some b -> objb hs u' = Some b -> u = u').

Lemma at_map {A} (f : A -> A) l i : at_ (map (option_map f) l) i = option_map f (at_ l i).
Proof. unfold at_. rewrite nth_error_map. destruct (nth_error l i) as [[x|]|]; reflexivity. Qed.
Lemma at_beyond {A} (l : list (option A)) v : length l <= v -> at_ l v = None.
Proof. intros H. unfold at_. rewrite (proj2 (nth_error_None l v)) by exact H. reflexivity. Qed.

(** * Reference counts *)
Lemma live st v h : rinv st -> at_ (hvars st) v = Some h -> exists x, at_ (cells st) (blk h) = Some x /\ 0 < fst x /\ fst x = refs (hvars st) (blk h).
Proof.
  intros R E. specialize (R (blk h)). pose proof (cnt_ge_at (fun h0 => one (blk h) (blk h0)) (hvars st) v h E) as G. cbn beta in G. rewrite one_same in G.
  unfold refs in R |- *. destruct (at_ (cells st) (blk h)) as [x|]; [exists x; auto|lia].
Qed.
Lemma view_ok st h x : rinv st -> at_ (cells st) (blk h) = Some x ->
  exists st', view_of st h = Some st' /\ rinv st' /\ hvars st' = hvars st ++ [Some h] /\ forall b, content st' b = content st b.
Proof.
  intros R E. unfold view_of. rewrite E. cbn [bind]. eexists. split; [reflexivity|]. pose proof (at_lt _ _ _ E) as L. split; [|split; [reflexivity|]].
  - intros b. cbn [cells hvars]. rewrite at_lset by exact L. specialize (R b). unfold refs in *. rewrite cnt_app. cbn [cnt fold_right].
    destruct (Nat.eqb_spec b (blk h)) as [->|N].
    + rewrite E in R. rewrite one_same. cbn [fst]. lia.
    + rewrite one_diff by congruence. rewrite !Nat.add_0_r. exact R.
  - intros b. unfold content. cbn [cells]. rewrite at_lset by exact L. destruct (Nat.eqb_spec b (blk h)) as [->|N]; [rewrite E|]; reflexivity.
Qed.
Lemma fill_ok st b x l : rinv st -> at_ (cells st) b = Some x ->
  exists st', fill st b l = Some st' /\ rinv st' /\ hvars st' = hvars st /\ forall b', content st' b' = if b' =? b then Some l else content st b'.
Proof.
  intros R E. unfold fill. rewrite E. cbn [bind]. eexists. split; [reflexivity|]. pose proof (at_lt _ _ _ E) as L. split; [|split; [reflexivity|]].
  - intros b'. cbn [cells hvars]. rewrite at_lset by exact L. specialize (R b'). destruct (Nat.eqb_spec b' b) as [->|N]; [rewrite E in R|]; exact R.
  - intros b'. unfold content. cbn [cells]. rewrite at_lset by exact L. destruct (b' =? b); reflexivity.
Qed.
Lemma relabel_ok st v h h' : rinv st -> at_ (hvars st) v = Some h -> blk h' = blk h -> rinv (HState (lset (hvars st) v (Some h')) (cells st)).
Proof.
  intros R E B b. cbn [cells hvars]. specialize (R b). unfold refs in *.
  pose proof (cnt_lset_at (fun h0 => one b (blk h0)) (hvars st) v h (Some h') E) as Q. cbn [wt] in Q. rewrite B in Q.
  destruct (at_ (cells st) b); lia.
Qed.
Lemma new_ok st h l : rinv st -> blk h = length (cells st) -> rinv (HState (hvars st ++ [Some h]) (cells st ++ [Some (1, l)])).
Proof.
  intros R B b. cbn [cells hvars]. specialize (R b). unfold refs in *. rewrite cnt_app. cbn [cnt fold_right]. rewrite at_app.
  destruct (Nat.ltb_spec b (length (cells st))) as [L|L].
  - rewrite one_diff by lia. rewrite !Nat.add_0_r. exact R.
  - rewrite at_beyond in R by exact L. destruct (Nat.eq_dec b (length (cells st))) as [->|N].
    + rewrite Nat.sub_diag, B, one_same. cbn. fold (cnt (fun h0 => one (length (cells st)) (blk h0)) (hvars st)). lia.
    + rewrite (at_beyond [_]) by (cbn; lia). rewrite one_diff by lia. fold (cnt (fun h0 => one b (blk h0)) (hvars st)). lia.
Qed.
Lemma end_ok st v h x : rinv st -> at_ (hvars st) v = Some h -> at_ (cells st) (blk h) = Some x ->
  let st' := HState (lset (hvars st) v None) (lset (cells st) (blk h) (if fst x =? 1 then None else Some (fst x - 1, snd x))) in
  rinv st' /\ forall u h', u <> v -> at_ (hvars st) u = Some h' -> content st' (blk h') = content st (blk h').
Proof.
  intros R E Ex st'. pose proof (at_lt _ _ _ Ex) as L. split.
  - intros b. unfold st'. cbn [cells hvars]. rewrite at_lset by exact L. specialize (R b). unfold refs in *.
    pose proof (cnt_lset_at (fun h0 => one b (blk h0)) (hvars st) v h None E) as Q. cbn [wt] in Q.
    destruct (Nat.eqb_spec b (blk h)) as [->|N].
    + rewrite one_same in Q. rewrite Ex in R. destruct (Nat.eqb_spec (fst x) 1); cbn [fst]; lia.
    + rewrite one_diff in Q by congruence. destruct (at_ (cells st) b); lia.
  - intros u h' N E'. unfold content, st'. cbn [cells]. rewrite at_lset by exact L. destruct (Nat.eqb_spec (blk h') (blk h)) as [Q|Q]; [|reflexivity].
    specialize (R (blk h)). rewrite Ex in R. pose proof (cnt_ge2_at (fun h0 => one (blk h) (blk h0)) (hvars st) u v h' h N E' E) as G. cbn beta in G.
    unfold refs in R. rewrite Q, one_same in G. rewrite Q, Ex. destruct (Nat.eqb_spec (fst x) 1); [lia|reflexivity].
Qed.

(** * What the variables stand for *)
Lemma objb_at hs u mn mx b : at_ hs u = Some (Obj mn mx b) -> objb hs u = Some b. Proof. unfold objb. intros ->. reflexivity. Qed.
Lemma agr_ext C C' hs s : (forall b, C' b = C b) -> agr C hs s -> agr C' hs s.
Proof.
  intros X (L & F & I). split; [exact L|]. split; [|exact I]. intros v. specialize (F v). unfold fits in *.
  destruct (at_ hs v) as [[mn mx b|b]|], (at_ s v) as [[? ? ? ?|c f a]|]; try exact F; rewrite X; exact F.
Qed.
Lemma agr_update C C' hs s v m0 x0 b mn mx n l : agr C hs s -> at_ hs v = Some (Obj m0 x0 b) ->
  C' b = Some (counts mn mx n l) -> (forall b', b' <> b -> C' b' = C b') -> 3 <= n -> (mn < mx)%Q ->
  agr C' (lset hs v (Some (Obj mn mx b))) (lset (map (option_map (mark v)) s) v (Some (Hist mn mx n l))).
Proof.
  intros (L & F & I) E Cb Co H3 Hl. pose proof (at_lt _ _ _ E) as Lv. pose proof (objb_at _ _ _ _ _ E) as Bv.
  assert (B : forall u, objb (lset hs v (Some (Obj mn mx b))) u = objb hs u).
  { intros u. unfold objb at 1. rewrite at_lset by exact Lv. destruct (Nat.eqb_spec u v) as [->|]; [symmetry; exact Bv|reflexivity]. }
  split; [rewrite !lset_len, map_length; exact L|]. split; [|intros u u' b'; rewrite !B; apply I].
  intros u. rewrite !at_lset by (rewrite ?map_length; lia). destruct (Nat.eqb_spec u v) as [->|N]; [cbn; auto|].
  rewrite at_map. specialize (F u). destruct (at_ hs u) as [[mn' mx' b'|b']|] eqn:Eu, (at_ s u) as [[? ? ? ?|c f a]|]; cbn [option_map mark fits] in *; try exact F.
  - destruct F as (A1 & A2 & A3 & A4 & A5). repeat split; auto. rewrite Co; [exact A5|]. intros ->. apply N. apply (I u v b); [apply (objb_at _ _ _ _ _ Eu)|exact Bv].
  - destruct F as (A1 & A2). split.
    + intros Q. apply orb_false_iff in Q as [Q1 Q2]. rewrite Co; [auto|]. intros ->. destruct f as [u'|]; cbn [is_from] in Q2.
      * apply Nat.eqb_neq in Q2. apply Q2. apply (I u' v b A2 Bv).
      * exact (A2 v Bv).
    + destruct f as [u'|]; [rewrite B; exact A2|intros u'; rewrite B; apply A2].
Qed.
Lemma agr_snoc_res C hs s b c f a : agr C hs s -> fits C (objb hs) (Some (Res b)) (Some (Counts c f a)) ->
  agr C (hs ++ [Some (Res b)]) (s ++ [Some (Counts c f a)]).
Proof.
  intros (L & F & I) N.
  assert (B : forall u, objb (hs ++ [Some (Res b)]) u = objb hs u).
  { intros u. unfold objb. rewrite at_snoc. destruct (Nat.eqb_spec u (length hs)) as [->|]; [|reflexivity]. rewrite (at_beyond hs) by lia. reflexivity. }
  split; [rewrite !app_length; cbn; lia|]. split; [|intros u u' b'; rewrite !B; apply I].
  assert (G : forall h t, fits C (objb hs) h t -> fits C (objb (hs ++ [Some (Res b)])) h t).
  { intros h t. unfold fits. destruct h as [[? ? ?|?]|], t as [[? ? ? ?|? [u|] ?]|]; intros H; try exact H; [rewrite B; exact H|].
    destruct H as [H1 H2]. split; [exact H1|]. intros u. rewrite B. apply H2. }
  intros u. apply G. rewrite !at_snoc, <- L. destruct (u =? length hs); [exact N|apply F].
Qed.
Lemma agr_snoc_obj C C' hs s b mn mx n : agr C hs s -> (forall v h, at_ hs v = Some h -> blk h <> b) -> (forall b', b' <> b -> C' b' = C b') ->
  C' b = Some (counts mn mx n []) -> 3 <= n -> (mn < mx)%Q -> agr C' (hs ++ [Some (Obj mn mx b)]) (s ++ [Some (Hist mn mx n [])]).
Proof.
  intros (L & F & I) Nb Co Cb H3 Hl.
  assert (B : forall u, objb (hs ++ [Some (Obj mn mx b)]) u = if u =? length hs then Some b else objb hs u).
  { intros u. unfold objb. rewrite at_snoc. destruct (u =? length hs); reflexivity. }
  assert (O : forall u, objb hs u <> Some b).
  { intros u Q. unfold objb in Q. destruct (at_ hs u) as [[? ? b'|]|] eqn:Eu; try discriminate. injection Q as ->. exact (Nb _ _ Eu eq_refl). }
  assert (Z : objb hs (length hs) = None) by (unfold objb; rewrite at_beyond by lia; reflexivity).
  split; [rewrite !app_length; cbn; lia|]. split.
  - intros u. rewrite !at_snoc, <- L. destruct (Nat.eqb_spec u (length hs)) as [->|N]; [cbn; auto|].
    specialize (F u). destruct (at_ hs u) as [[mn' mx' b'|b']|] eqn:Eu, (at_ s u) as [[? ? ? ?|c f a]|]; cbn [fits] in *; try exact F.
    + destruct F as (A1 & A2 & A3 & A4 & A5). repeat split; auto. rewrite Co; [exact A5|]. exact (Nb _ _ Eu).
    + destruct F as (A1 & A2). pose proof (Nb _ _ Eu) as Q. cbn [blk] in Q. split; [intros H; rewrite Co; auto|].
      destruct f as [u'|]; [rewrite B; destruct (Nat.eqb_spec u' (length hs)) as [->|]; [congruence|exact A2]|].
      intros u'. rewrite B. destruct (u' =? length hs); [congruence|apply A2].
  - intros u u' b'. rewrite !B. destruct (Nat.eqb_spec u (length hs)), (Nat.eqb_spec u' (length hs)); intros H1 H2; try congruence.
    exact (I u u' b' H1 H2).
Qed.
Lemma agr_end C C' hs s v h : agr C hs s -> at_ hs v = Some h -> (forall u h', u <> v -> at_ hs u = Some h' -> C' (blk h') = C (blk h')) ->
  agr C' (lset hs v None) (lset (map (option_map (orphan v)) s) v None).
Proof.
  intros (L & F & I) E Co. pose proof (at_lt _ _ _ E) as Lv.
  assert (B : forall u, objb (lset hs v None) u = if u =? v then None else objb hs u).
  { intros u. unfold objb. rewrite at_lset by exact Lv. destruct (u =? v); reflexivity. }
  split; [rewrite !lset_len, map_length; exact L|]. split.
  - intros u. rewrite !at_lset by (rewrite ?map_length; lia). destruct (Nat.eqb_spec u v) as [->|N]; [exact Logic.I|].
    rewrite at_map. specialize (F u). specialize (Co u). destruct (at_ hs u) as [[mn' mx' b'|b']|] eqn:Eu, (at_ s u) as [[? ? ? ?|c f a]|]; cbn [option_map orphan fits] in *; try exact F.
    + pose proof (Co _ N eq_refl) as Q. cbn [blk] in Q. rewrite Q. exact F.
    + pose proof (Co _ N eq_refl) as Q. cbn [blk] in Q. rewrite Q. destruct F as [A1 A2]. split; [exact A1|]. destruct f as [u'|]; cbn [is_from].
      * destruct (Nat.eqb_spec u' v) as [->|N']; [|rewrite B; apply Nat.eqb_neq in N'; rewrite N'; exact A2].
        intros u'. rewrite B. destruct (Nat.eqb_spec u' v); [discriminate|]. intros H. apply n. exact (I _ _ _ H A2).
      * intros u'. rewrite B. destruct (u' =? v); [discriminate|apply A2].
  - intros u u' b'. rewrite !B. destruct (u =? v), (u' =? v); try discriminate. apply I.
Qed.

(** * Calls *)
Lemma counts_len mn mx n l : length (counts mn mx n l) = n. Proof. unfold counts. rewrite map_length, seq_length. reflexivity. Qed.
Lemma nth_counts mn mx n l k : k < n -> nth k (counts mn mx n l) 0%Z = count mn mx n k l.
Proof.
  intros H. unfold counts. rewrite (nth_indep _ 0%Z (count mn mx n 0 l)) by (rewrite map_length, seq_length; exact H).
  change (count mn mx n 0 l) with ((fun k => count mn mx n k l) 0). rewrite map_nth, seq_nth by exact H. reflexivity.
Qed.
Lemma counts_nil mn mx n : counts mn mx n [] = repeat 0%Z n.
Proof. unfold counts, count. cbn [filter length]. generalize 0 at 2. induction n as [|n IH]; intros k; [reflexivity|]. cbn [seq map repeat]. f_equal. apply IH. Qed.
Lemma call_counts mn mx n l acc (x : samples reals) : 3 <= n -> (mn < mx)%Q -> rows_ok x = true ->
  (Z.of_nat (length l) + Z.of_nat (length (all_samples reals x)) < 2 ^ 31)%Z ->
  exists h, call reals {| min_ := mn : reals; max_ := mx; hist_ := counts mn mx n l |} acc x = Some h /\
    hist_ h = counts mn mx n ((if acc then l else []) ++ all_samples reals x).
Proof.
  intros H3 Hl Sh Hr.
  destruct (call_ok (fun v : reals => v) (fun _ => True) mn mx n H3 Hl (reals_bin mn mx n H3 Hl)
    {| min_ := mn : reals; max_ := mx; hist_ := counts mn mx n l |} [] l acc x) as (h & E & _ & _ & Ln & Hc).
  - unfold holds. cbn [min_ max_ hist_]. rewrite counts_len. repeat split; auto. intros k Hk. rewrite nth_counts by exact Hk. rewrite map_id. destruct k; reflexivity.
  - apply Forall_forall. auto.
  - destruct x as [v|r c]; cbn in *; [exact Logic.I|]. apply Forall_forall. rewrite forallb_forall in Sh. intros w Hw. apply Nat.eqb_eq. apply Sh. exact Hw.
  - intros k Hk. assert (nth k (@nil Z) 0%Z = 0%Z) as -> by (destruct k; reflexivity). split; [lia|exact Hr].
  - exists h. split; [exact E|]. apply (nth_ext _ _ 0%Z 0%Z); [rewrite counts_len; exact Ln|]. intros k Hk. rewrite Ln in Hk.
    rewrite nth_counts by exact Hk. rewrite Hc by exact Hk. rewrite map_id. destruct acc, k; reflexivity.
Qed.

(** * Steps *)
Definition inv (st : hstate) (s : list (option thing)) : Prop := rinv st /\ agr (content st) (hvars st) s.
Lemma content_at st b x : at_ (cells st) b = Some x -> content st b = Some (snd x). Proof. unfold content. intros ->. reflexivity. Qed.

Lemma step_ok st s o s' q : inv st s -> ideal s o = Some (s', q) ->
  exists st' r, hstep st o = Some (st', r) /\ inv st' s' /\ Forall2 answers q r.
Proof.
  intros [R A] H. pose proof A as (L & F & I). destruct o as [mn mx num|w|v w|v acc x|r|r|v]; cbn [ideal hstep] in *.
  - destruct (Qlt_bool mn mx) eqn:El; [|discriminate]. destruct (Nat.leb_spec 3 num) as [H3|]; [|discriminate]. injection H as <- <-.
    unfold make_histogram. cbn [ltb reals]. fold (Qlt_bool mn mx). rewrite El, (proj2 (Nat.leb_le 3 num) H3). cbn [bind hist_].
    rewrite Qltb_lt in El. eexists _, _. split; [reflexivity|]. split; [|constructor]. split; [apply new_ok; [exact R|reflexivity]|].
    cbn [hvars]. apply (agr_snoc_obj (content st)); auto.
    + intros v h E Q. destruct (live st v h R E) as (y & Ey & _). apply at_lt in Ey. lia.
    + intros b N. unfold content. cbn [cells]. rewrite at_snoc. apply Nat.eqb_neq in N. rewrite N. reflexivity.
    + unfold content. cbn [cells]. rewrite at_snoc, Nat.eqb_refl, counts_nil. reflexivity.
  - discriminate.
  - pose proof (F v) as Fv. pose proof (F w) as Fw. destruct (at_ s v) as [t|]; [|discriminate]. destruct (at_ s w) as [u|]; [|discriminate].
    destruct (at_ (hvars st) v) as [h|] eqn:Ev; [|destruct Fv]. destruct (at_ (hvars st) w) as [g|] eqn:Ew; [|destruct Fw]. cbn [bind] in *.
    destruct t as [m0 x0 n0 l0|]; [|discriminate]. destruct u as [mn mx m l|]; [|discriminate].
    destruct h as [m0' x0' b|]; [|destruct Fv]. destruct g as [mn' mx' c|]; [|destruct Fw].
    destruct (Nat.eqb_spec n0 m) as [->|]; [|discriminate]. injection H as <- <-. cbn [fits] in Fv, Fw.
    destruct Fv as (_ & _ & _ & _ & Cv). destruct Fw as (-> & -> & H3 & Hl & Cw).
    destruct (live st v _ R Ev) as (y & Ey & _). destruct (live st w _ R Ew) as (z & Ez & _). cbn [blk] in Ey, Ez.
    rewrite (content_at _ _ _ Ey) in Cv. rewrite (content_at _ _ _ Ez) in Cw. injection Cv as Cv. injection Cw as Cw.
    rewrite Ey, Ez. cbn [bind]. rewrite Cv, Cw, !counts_len, Nat.eqb_refl.
    destruct (fill_ok st b y (counts mn mx m l) R Ey) as (st' & -> & R' & V' & C'). cbn [bind].
    eexists _, _. split; [reflexivity|]. split; [|constructor]. split.
    + apply (relabel_ok st' v (Obj m0' x0' b)); [exact R'|rewrite V'; exact Ev|reflexivity].
    + cbn [hvars]. rewrite V'. change (content (HState (lset (hvars st) v (Some (Obj mn mx b))) (cells st'))) with (content st').
      apply (agr_update (content st) (content st') _ _ v m0' x0' b); auto; [rewrite C', Nat.eqb_refl; reflexivity|].
      intros b' N. rewrite C'. apply Nat.eqb_neq in N. rewrite N. reflexivity.
  - pose proof (F v) as Fv. destruct (at_ s v) as [t|]; [|discriminate]. destruct (at_ (hvars st) v) as [h|] eqn:Ev; [|destruct Fv]. cbn [bind] in *.
    destruct t as [mn mx n l|]; [|discriminate]. destruct h as [mn' mx' b|]; [|destruct Fv]. cbn [fits] in Fv. destruct Fv as (-> & -> & H3 & Hl & Cv).
    destruct (rows_ok x) eqn:Sh; [|discriminate].
    destruct (Z.of_nat (length l) + Z.of_nat (length (all_samples reals x)) <? 2 ^ 31)%Z eqn:Hr; [|discriminate]. apply Z.ltb_lt in Hr. injection H as <- <-.
    destruct (live st v _ R Ev) as (y & Ey & _). cbn [blk] in Ey. rewrite (content_at _ _ _ Ey) in Cv. injection Cv as Cv.
    rewrite Ey. cbn [bind]. rewrite Cv. destruct (call_counts mn mx n l acc x H3 Hl Sh Hr) as (hh & -> & Eh). cbn [bind]. rewrite Eh.
    set (l' := (if acc then l else []) ++ all_samples reals x) in *.
    destruct (fill_ok st b y (counts mn mx n l') R Ey) as (st' & -> & R' & V' & C'). cbn [bind].
    assert (Ev' : at_ (hvars st') v = Some (Obj mn mx b)) by (rewrite V'; exact Ev).
    destruct (live st' v _ R' Ev') as (y' & Ey' & _). cbn [blk] in Ey'.
    destruct (view_ok st' (Res b) y' R' Ey') as (st'' & -> & R'' & V'' & C''). cbn [bind].
    eexists _, _. split; [reflexivity|]. split; [|constructor]. split; [exact R''|]. rewrite V''. apply (agr_ext (content st')); [exact C''|].
    assert (U : agr (content st') (hvars st') (lset (map (option_map (mark v)) s) v (Some (Hist mn mx n l')))).
    { rewrite V'. rewrite <- (lset_same (hvars st) v (Some (Obj mn mx b))) by (apply at_some; exact Ev).
      apply (agr_update (content st) (content st') _ _ v mn mx b); auto; [rewrite C', Nat.eqb_refl; reflexivity|].
      intros b' N. rewrite C'. apply Nat.eqb_neq in N. rewrite N. reflexivity. }
    apply agr_snoc_res; [exact U|]. cbn [fits]. split; [intros _; rewrite C', Nat.eqb_refl; reflexivity|]. apply (objb_at _ _ mn mx). exact Ev'.
  - pose proof (F r) as Fv. destruct (at_ s r) as [t|]; [|discriminate]. destruct (at_ (hvars st) r) as [h|] eqn:Ev; [|destruct Fv]. cbn [bind] in *.
    destruct t as [|c f a]; [discriminate|]. injection H as <- <-. destruct h as [|b]; [destruct Fv|].
    destruct (live st r _ R Ev) as (y & Ey & _). destruct (view_ok st (Res b) y R Ey) as (st' & -> & R' & V' & C'). cbn [bind].
    eexists _, _. split; [reflexivity|]. split; [|constructor]. split; [exact R'|]. rewrite V'. apply (agr_ext (content st)); [exact C'|].
    apply agr_snoc_res; [exact A|exact Fv].
  - pose proof (F r) as Fv. destruct (at_ s r) as [t|]; [|discriminate]. destruct (at_ (hvars st) r) as [h|] eqn:Ev; [|destruct Fv]. cbn [bind] in *.
    destruct t as [|c f a]; [discriminate|]. injection H as <- <-. destruct h as [|b]; [destruct Fv|].
    destruct (live st r _ R Ev) as (y & Ey & _). cbn [blk] in Ey. rewrite Ey. cbn [bind]. eexists _, _. split; [reflexivity|]. split; [split; assumption|].
    constructor; [|constructor]. cbn [fits] in Fv. destruct Fv as [Q _]. destruct a; [exact Logic.I|]. cbn. specialize (Q eq_refl). rewrite (content_at _ _ _ Ey) in Q. congruence.
  - pose proof (F v) as Fv. destruct (at_ s v) as [t|]; [|discriminate]. destruct (at_ (hvars st) v) as [h|] eqn:Ev; [|destruct Fv]. cbn [bind] in *. injection H as <- <-.
    destruct (live st v _ R Ev) as (y & Ey & _). rewrite Ey. cbn [bind]. destruct (end_ok st v h y R Ev Ey) as [R' C'].
    eexists _, _. split; [reflexivity|]. split; [|constructor]. split; [exact R'|]. cbn [hvars]. apply (agr_end (content st) _ _ _ v h); auto.
Qed.

Lemma run_ok : forall ops st s s' q, inv st s -> exec ideal s ops = Some (s', q) ->
  exists st' r, exec hstep st ops = Some (st', r) /\ inv st' s' /\ Forall2 answers q r.
Proof.
  induction ops as [|o ops IH]; intros st s s' q V H; cbn [exec] in *; [injection H as <- <-; exists st, []; auto|].
  destruct (ideal s o) as [[s1 q1]|] eqn:E; [|discriminate]. cbn [bind fst snd] in H. destruct (exec ideal s1 ops) as [[s2 q2]|] eqn:E2; [|discriminate].
  cbn [bind fst snd] in H. injection H as <- <-. destruct (step_ok st s o s1 q1 V E) as (st1 & r1 & -> & V1 & A1). cbn [bind fst].
  destruct (IH st1 s1 s2 q2 V1 E2) as (st2 & r2 & -> & V2 & A2). cbn [bind fst snd]. exists st2, (r1 ++ r2). split; [reflexivity|]. split; [exact V2|]. apply Forall2_app; assumption.
Qed.
Lemma start_inv : inv hstart [].
Proof.
  split; [intros b; cbn; rewrite at_beyond by (cbn; lia); reflexivity|]. split; [reflexivity|]. split.
  - intros v. rewrite !at_beyond by (cbn; lia). exact Logic.I.
  - intros u u' b. unfold objb. cbn [hvars hstart]. rewrite at_beyond by (cbn; lia). discriminate.
Qed.
Lemma empty_ok st s : inv st s -> Forall (eq None) s -> Forall (eq None) (hvars st) /\ Forall (eq None) (cells st).
Proof.
  intros [R (L & F & _)] N. assert (V : forall v, at_ (hvars st) v = None).
  { intros v. specialize (F v). rewrite (none_all s v N) in F. destruct (at_ (hvars st) v) as [[|]|]; [destruct F..|reflexivity]. }
  split; [apply all_none; exact V|]. apply all_none. intros b. specialize (R b). destruct (at_ (cells st) b) as [x|]; [|reflexivity].
  unfold refs in R. rewrite cnt_none_at in R; [lia|]. intros i h E. rewrite V in E. discriminate.
Qed.
