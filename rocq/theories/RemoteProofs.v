(** Proofs for Remote.v. *)
From Coq Require Import List Arith ZArith Lia Bool.
From Verif Require Import Base Layout LayoutProofs Dist Domain Traversal Map MapProofs ParAssign ParAssignProofs ParSeq ParSeqProofs Remote.
Import ListNotations.
Local Open Scope nat_scope.

Lemma ext_whole ext : ext_of (map (fun e => (Whole, e)) ext) = ext.
Proof. unfold ext_of. rewrite map_map. cbn. apply map_id. Qed.
Lemma ev_ext n ext : a_ext (everywhere n ext) = ext.
Proof. apply ext_whole. Qed.
Lemma ev_sub n ext r : amap_ok (everywhere n ext) -> r < n -> a_subblock (everywhere n ext) r = Some 0.
Proof.
  intros A L. destruct (proj2 (a_sub_iff _ A r)) as (sb & E); [cbn; apply in_seq; lia|]. rewrite E. f_equal.
  unfold a_subblock, everywhere in E. cbn [a_rep a_pvec] in E. unfold rep_subblock in E. match type of E with bind ?x _ = _ => destruct x; [|discriminate E] | match ?x with _ => _ end = _ => destruct x; [|discriminate E] end. cbn in E. congruence.
Qed.

Lemma lookup_map {V} (f : list nat -> V) l g d : In g l -> lookup (combine l (map f l)) g d = f g.
Proof. induction l as [|h l IH]; cbn; [tauto|]. destruct (list_eq_dec _ h g) as [->|N]; [reflexivity|]. intros [->|H]; [congruence|auto]. Qed.
Lemma lookup_irr {V} l (vals : list V) g d d' : length vals = length l -> In g l -> lookup (combine l vals) g d = lookup (combine l vals) g d'.
Proof. revert vals. induction l as [|h l IH]; intros [|x vals] L H; cbn in *; try discriminate; try tauto. destruct (list_eq_dec _ h g); [reflexivity|]. destruct H; [congruence|]. apply IH; [lia|assumption]. Qed.
(** Storing at distinct places. *)
Lemma wrs_lookup {V} (o : list nat -> Z) (l : list (list nat)) : forall (vals : list V) m g d, NoDup l -> (forall a b, In a l -> In b l -> o a = o b -> a = b) -> length vals = length l -> In g l ->
  wrs m (combine (map o l) vals) (o g) = lookup (combine l vals) g d.
Proof.
  induction l as [|h l IH]; intros vals m g d ND Inj L H; [destruct H|]. destruct vals as [|x vals]; [discriminate L|]. cbn [map combine lookup]. cbn [wrs fold_left]. fold (wrs (wr m (o h, x)) (combine (map o l) vals)).
  inversion_clear ND as [|? ? N1 N2]. destruct (list_eq_dec _ h g) as [->|N].
  - assert (K : forall vals' m', (forall v, ~ In (o g, v) (combine (map o l) vals')) -> wrs (V := V) m' (combine (map o l) vals') (o g) = m' (o g)).
    { clear -l. intros vals'. generalize (map o l). clear l. intros l. revert vals'. induction l as [|z l IH]; intros [|y vals'] m' Hn; cbn; try reflexivity.
      fold (wrs (wr m' (z, y)) (combine l vals')). rewrite IH; [|intros v Hv; apply (Hn v); right; exact Hv]. unfold wr. cbn. destruct (Z.eqb_spec (o g) z) as [Eo|]; [|reflexivity]. exfalso. apply (Hn y). left. rewrite Eo. reflexivity. }
    rewrite K.
    + unfold wr. cbn. rewrite Z.eqb_refl. reflexivity.
    + intros v Hv. apply in_combine_l in Hv. apply in_map_iff in Hv as (a & Ea & Ha). assert (a = g) by (apply Inj; [right; exact Ha|left; reflexivity|exact Ea]). subst. contradiction.
  - destruct H as [->|H]; [congruence|]. apply IH; [exact N2|intros a b Ha Hb; apply Inj; right; assumption|cbn in L; lia|exact H].
Qed.

Section R.
Context {V : Type} (eager : nat -> nat -> nat -> bool) (n : nat) (D : nat -> var) (O : nat -> list nat) (buf : nat).
Variable U : nat -> Prop.
Hypothesis UV : forall v, U v -> var_ok n (O v) (D v).
Notation hold v M X := (forall r, holds (v_map (D v)) (v_st (D v)) (fun r => M r v) X r).

Lemma hold_ext v (M : nat -> nat -> Z -> V) X X' : U v -> (forall g, in_range (a_ext (v_map (D v))) g -> X g = X' g) -> hold v M X -> hold v M X'.
Proof.
  intros Uv E H r sb ext l g E1 E2 E3 E4. rewrite (H r sb ext l g E1 E2 E3 E4). apply E.
  pose proof (vo_map _ _ _ (UV v Uv)) as A. rewrite (a_lx _ A) in E2. rewrite (a_gf _ A sb ext l E2 E3) in E4.
  destruct (mp_back _ (mp _ A) sb ext l E2 E3) as (g' & G & G2 & _). assert (g' = g) by congruence. subst. exact G2.
Qed.
Lemma hold_everywhere v ext (M : nat -> nat -> Z -> V) X : U v -> v_map (D v) = everywhere n ext -> (hold v M X <-> forall r g, r < n -> in_range ext g -> M r v (off (v_st (D v) r) g) = X g).
Proof.
  intros Uv E. pose proof (UV v Uv) as VO. pose proof (vo_map _ _ _ VO) as A. split.
  - intros H r g Hr Hg. rewrite E in *. apply (H r 0 ext g g); [apply ev_sub; assumption| |exact Hg|reflexivity]. unfold a_lext. cbn [everywhere a_rep]. cbn [Nat.eqb]. change (Some (a_ext (everywhere n ext)) = Some ext). rewrite ev_ext. reflexivity.
  - intros H r sb ext' l g E1 E2 E3 E4. rewrite E in *. unfold a_lext in E2. unfold a_gfl in E4. cbn [everywhere a_rep] in E2, E4.
    destruct (sb =? 0); [|discriminate E2]. injection E4 as ->. change (Some (a_ext (everywhere n ext)) = Some ext') in E2. rewrite ev_ext in E2. injection E2 as <-. apply H; [|exact E3].
    assert (In r (a_pvec (everywhere n ext))) as Q by (apply (a_sub_iff _ A); eauto). cbn in Q. apply in_seq in Q. lia.
Qed.

Lemma copy_ok I dst src : U dst -> In src I -> U src -> a_ext (v_map (D src)) = a_ext (v_map (D dst)) -> (a_rep (v_map (D src)) = true \/ a_rep (v_map (D dst)) = true) -> stmt_ok n D O U I (copy (V := V) dst src).
Proof.
  intros Ud Is Us E R. constructor; cbn.
  - exact Ud.
  - intros v [<-|[]]. exact Is.
  - intros v [<-|[]]. exact E.
  - intros H. exfalso. apply (H src). reflexivity.
  - intros H. exfalso. apply (H src). reflexivity.
  - intros v [= <-] B. exfalso. unfold is_blkvec, is_block_dist in B. apply andb_true_iff in B as [B1 B2].
    destruct R as [R|R]; [destruct (a_dims (v_map (D src))) as [|[[] ?] []]|destruct (a_dims (v_map (D dst))) as [|[[] ?] []]]; try discriminate; rewrite R in *; discriminate.
  - discriminate.
Qed.

Definition touched (i : item V) : list nat :=
  match i with IStmt s => [s_lhs s] | IAccess a => [ac_block a; ac_local a; ac_repl_in a; ac_repl_out a] end.
Definition i_achieves (i : item V) (I : list nat) (M : nat -> nat -> Z -> V) (X : nat -> list nat -> V) : Prop :=
  exists P M', (forall r, r < n -> item_program D O buf i r = Some (P r)) /\ (forall r, n <= r -> P r = []) /\ execs eager P M M' /\
    (forall v, In v (outputs i ++ I) -> hold v M' (run_item X i v)) /\
    (forall r v o, U v -> ~ In v (touched i) -> M' r v o = M r v o).

Lemma access_achieves a I M X : access_ok n D U I a -> (forall v, In v I -> U v) -> (forall v, In v I -> hold v M (X v)) -> i_achieves (IAccess a) I M X.
Proof.
  intros AO IU HI. destruct (ao_used _ _ _ _ _ AO) as (Ub & Ul & Ui & Uo). destruct (ao_fresh _ _ _ _ _ AO) as (Fi & Fo).
  pose proof (ao_maps _ _ _ _ _ AO) as AM. destruct (ao_idx _ _ _ _ _ AO) as (IN & II). pose proof (ao_len _ _ _ _ _ AO) as AL. pose proof (ao_noin _ _ _ _ _ AO) as AN.
  pose proof (ao_differ _ _ _ _ _ AO) as ND. pose proof (ao_value _ _ _ _ _ AO) as AV.
  set (b := ac_block a) in *. set (l := ac_local a) in *. set (ri := ac_repl_in a) in *. set (ro := ac_repl_out a) in *. set (ext := a_ext (v_map (D b))) in *.
  assert (Dbl : b <> l /\ b <> ri /\ b <> ro /\ l <> ri /\ l <> ro /\ ri <> ro).
  { clear -ND. inversion_clear ND as [|? ? N1 ND1]. inversion_clear ND1 as [|? ? N2 ND2]. inversion_clear ND2 as [|? ? N3 _]. cbn in N1, N2, N3. intuition congruence. }
  destruct Dbl as (Dbl & Dbi & Dbo & Dli & Dlo & Dio).
  assert (Ml : v_map (D l) = everywhere n ext) by (apply AM; cbn; auto).
  assert (Mi : v_map (D ri) = everywhere n ext) by (apply AM; cbn; auto).
  assert (Mo : v_map (D ro) = everywhere n ext) by (apply AM; cbn; auto).
  set (fx := ac_work a (map (X b) (ac_idx a))) in *.
  assert (Lfx : length fx = length (ac_idx a)) by (apply AL; rewrite map_length; reflexivity).
  (* the input *)
  assert (IN1 : exists P1 M1, (forall r, r < n -> sync_in D O buf a r = Some (P1 r)) /\ (forall r, n <= r -> P1 r = []) /\ execs eager P1 M M1 /\
     (forall v, In v I -> v <> l -> hold v M1 (X v)) /\ (ac_in a = true -> hold l M1 (X b)) /\ (forall r v o, U v -> v <> l -> v <> ri -> M1 r v o = M r v o)).
  { unfold sync_in. destruct (ac_in a) eqn:Ei.
    - specialize (AV eq_refl). destruct (prog_achieves eager n D O buf U UV [copy ri b; copy l ri] I M X) as (P1 & M1 & A1 & A2 & A3 & A4 & A5); [|exact IU|exact HI|].
      + apply po_cons; [apply copy_ok; auto; rewrite Mi; [rewrite ev_ext; reflexivity|right; reflexivity]|].
        apply po_cons; [apply copy_ok; cbn; auto; rewrite Ml, Mi; [reflexivity|right; reflexivity]|apply po_nil].
      + exists P1, M1. split; [exact A1|]. split; [exact A2|]. split; [exact A3|]. split; [|split].
        * intros v Hv Nl. apply (hold_ext v M1 (run X [copy ri b; copy l ri] v)); [auto| |apply A4; auto]. intros g _. unfold run, fold_left, run_stmt, copy. cbn [s_lhs s_rhs geval].
          rewrite (proj2 (Nat.eqb_neq v l) Nl). destruct (Nat.eqb_spec v ri) as [->|]; [contradiction|reflexivity].
        * intros _. apply (hold_ext l M1 (run X [copy ri b; copy l ri] l)); [auto| |apply A4; cbn; auto]. intros g _. unfold run, fold_left, run_stmt, copy. cbn [s_lhs s_rhs geval]. rewrite !Nat.eqb_refl. reflexivity.
        * intros r v o Uv N1 N2. apply A5; [exact Uv|]. cbn. intros [E|[E|[]]]; congruence.
    - exists (fun _ => []), M. split; [reflexivity|]. split; [reflexivity|]. split; [apply execs_nil; reflexivity|]. split; [auto|]. split; [discriminate|auto]. }
  destruct IN1 as (P1 & M1 & A1 & A2 & A3 & A4 & A4' & A5).
  (* the work *)
  set (cells := fun r => map (off (v_st (D l) r)) (ac_idx a)).
  set (P2 := fun r => if r <? n then [GWork l (cells r) (ac_work a)] else [] : list (gact V)).
  set (M2 := fun r => lrun (P2 r) (M1 r)).
  assert (B3 : execs eager P2 M1 M2).
  { apply (execs_local eager n). - intros r. unfold P2. destruct (r <? n); repeat constructor. - intros r Hr. unfold P2. destruct (Nat.ltb_spec r n); [lia|reflexivity]. }
  assert (W : forall r, r < n -> ac_work a (map (M1 r l) (cells r)) = fx).
  { intros r Hr. destruct (ac_in a) eqn:Ei.
    - unfold fx. f_equal. unfold cells. rewrite map_map. apply map_ext_in. intros g Hg. apply (proj1 (hold_everywhere l ext M1 (X b) Ul Ml) (A4' eq_refl)); [exact Hr|apply II; exact Hg].
    - apply (AN eq_refl); unfold cells; rewrite ?map_length; reflexivity. }
  assert (B4 : hold l M2 (fun g => lookup (combine (ac_idx a) fx) g (X l g))).
  { apply (hold_everywhere l ext); [exact Ul|exact Ml|]. intros r g Hr Hg. unfold M2, P2. destruct (Nat.ltb_spec r n) as [_|]; [|lia]. cbn [lrun fold_left]. unfold lrun. cbn [fold_left].
    rewrite upd_same, W by exact Hr. unfold cells. apply wrs_lookup; [exact IN| |exact Lfx|apply II; exact Hg].
    intros x y Hx Hy E. apply II in Hx. apply II in Hy. pose proof (UV l Ul) as VO. pose proof (vo_map _ _ _ VO) as VM.
    apply (vo_cell _ _ _ VO r 0 ext); [rewrite Ml in *; apply ev_sub; assumption| |exact Hx|exact Hy|exact E]. rewrite Ml. unfold a_lext. cbn [everywhere a_rep Nat.eqb]. change (Some (a_ext (everywhere n ext)) = Some ext). rewrite ev_ext. reflexivity. }
  assert (B5 : forall r v o, v <> l -> M2 r v o = M1 r v o).
  { intros r v o N. unfold M2, P2. destruct (r <? n); [|reflexivity]. unfold lrun. cbn [fold_left]. rewrite upd_other by exact N. reflexivity. }
  set (X2 := fun v => if v =? l then fun g => lookup (combine (ac_idx a) fx) g (X l g) else X v).
  assert (B6 : forall v, In v (l :: I) -> hold v M2 (X2 v)).
  { intros v Hv. unfold X2. destruct (Nat.eqb_spec v l) as [->|N]; [exact B4|]. destruct Hv as [Hv|Hv]; [congruence|].
    intros r sb e g0 g E1 E2 E3 E4. rewrite B5 by exact N. exact (A4 v Hv N r sb e g0 g E1 E2 E3 E4). }
  (* the output *)
  set (out := ac_out a && ac_modifiable a).
  assert (OUT : exists P3 M3, (forall r, r < n -> sync_out D O buf a r = Some (P3 r)) /\ (forall r, n <= r -> P3 r = []) /\ execs eager P3 M2 M3 /\
     (forall v, In v (outputs (IAccess a) ++ I) -> hold v M3 (run_item X (IAccess a) v)) /\ (forall r v o, U v -> v <> ro -> v <> b -> M3 r v o = M2 r v o)).
  { assert (SO : forall r, sync_out D O buf a r = if out then assign_to D O buf b ro l r else Some []).
    { intros r. unfold sync_out, out. destruct (ac_out a), (ac_modifiable a); reflexivity. }
    unfold outputs, run_item. fold out b l fx. destruct out.
    - destruct (prog_achieves eager n D O buf U UV [copy ro l; copy b ro] (l :: I) M2 X2) as (P3 & M3 & C1 & C2 & C3 & C4 & C5); [| |exact B6|].
      + apply po_cons; [apply copy_ok; cbn; auto; rewrite Ml, ?Mo; [reflexivity|left; reflexivity]|].
        apply po_cons; [apply copy_ok; cbn; auto; rewrite Mo; [rewrite ev_ext; reflexivity|left; reflexivity]|apply po_nil].
      + intros v [<-|Hv]; auto.
      + exists P3, M3. split; [intros r Hr; rewrite SO; apply C1, Hr|]. split; [exact C2|]. split; [exact C3|]. split.
        * intros v Hv. assert (Hv' : (v = b \/ v = l) \/ (In v I /\ v <> b /\ v <> l)).
          { destruct (Nat.eq_dec v b); [auto|]. destruct (Nat.eq_dec v l); [auto|]. right. cbn in Hv. destruct Hv as [E|[E|Hv]]; try congruence. auto. }
          assert (Uv : U v) by (destruct Hv' as [[->| ->]|[H _]]; auto).
          apply (hold_ext v M3 (run X2 [copy ro l; copy b ro] v)); [exact Uv| |apply C4].
          -- intros g Hg. unfold run, fold_left, run_stmt, copy. cbn [s_lhs s_rhs geval]. unfold X2. rewrite ?Nat.eqb_refl. cbn [andb].
             destruct Hv' as [[->| ->]|(Hi & N1 & N2)].
             ++ rewrite Nat.eqb_refl. rewrite (proj2 (Nat.eqb_neq b l) Dbl). cbn [orb]. apply lookup_irr; [exact Lfx|]. apply II. exact Hg.
             ++ rewrite (proj2 (Nat.eqb_neq l b)) by congruence. rewrite (proj2 (Nat.eqb_neq l ro)) by congruence. rewrite Nat.eqb_refl. reflexivity.
             ++ rewrite (proj2 (Nat.eqb_neq v b) N1), (proj2 (Nat.eqb_neq v l) N2). cbn [orb]. destruct (Nat.eqb_spec v ro) as [->|]; [contradiction|reflexivity].
          -- destruct Hv' as [[->| ->]|(Hi & _)]; cbn; auto.
        * intros r v o Uv N1 N2. apply C5; [exact Uv|]. cbn. intros [E|[E|[]]]; congruence.
    - exists (fun _ => []), M2. split; [intros r _; apply SO|]. split; [reflexivity|]. split; [apply execs_nil; reflexivity|]. split; [|reflexivity].
      intros v Hv. cbn [app] in Hv. pose proof (B6 v Hv) as Q. unfold X2 in Q. cbn [andb]. rewrite orb_false_r. destruct (v =? l) eqn:E; [|exact Q]. apply Nat.eqb_eq in E. subst v. exact Q. }
  destruct OUT as (P3 & M3 & C1 & C2 & C3 & C4 & C5).
  exists (fun r => P1 r ++ P2 r ++ P3 r), M3. split; [|split; [|split; [|split]]].
  - intros r Hr. cbn [item_program]. unfold access_program. rewrite A1, C1 by exact Hr. cbn [bind]. unfold P2. destruct (Nat.ltb_spec r n); [|lia]. reflexivity.
  - intros r Hr. rewrite A2, C2 by exact Hr. unfold P2. destruct (Nat.ltb_spec r n); [lia|reflexivity].
  - apply (execs_app eager P1 _ M M1 M3 A3). apply (execs_app eager P2 P3 M1 M2 M3 B3 C3).
  - exact C4.
  - intros r v o Uv NT. cbn [touched In] in NT. fold b l ri ro in NT. rewrite C5, B5, A5; auto; intros ->; apply NT; auto.
Qed.

Lemma item_achieves i I M X : match i with IStmt s => stmt_ok n D O U I s | IAccess a => access_ok n D U I a end -> (forall v, In v I -> U v) ->
  (forall v, In v I -> hold v M (X v)) -> i_achieves i I M X.
Proof.
  destruct i as [s|a]; intros OK IU HI; [|apply access_achieves; assumption].
  destruct (stmt_achieves eager n D O buf U UV s I M X OK IU HI) as (P & M' & A1 & A2 & A3 & A4 & A5). exists P, M'. split; [exact A1|]. split; [exact A2|]. split; [exact A3|]. split; [exact A4|].
  intros r v o Uv N. apply A5; [exact Uv|]. intros ->. exfalso. apply N. left. reflexivity.
Qed.

Lemma items_used I a : access_ok (V := V) n D U I a -> forall v, In v (outputs (IAccess a)) -> U v.
Proof. intros AO v Hv. destruct (ao_used _ _ _ _ _ AO) as (Ub & Ul & _). cbn in Hv. destruct Hv as [<-|Hv]; [exact Ul|]. destruct (_ && _); [|destruct Hv]. destruct Hv as [<-|[]]. exact Ub. Qed.

Lemma items_achieve is : forall I (M : nat -> nat -> Z -> V) X, items_ok n D O U I is -> (forall v, In v I -> U v) -> (forall v, In v I -> hold v M (X v)) ->
  exists P M', (forall r, r < n -> items_program D O buf is r = Some (P r)) /\ (forall r, n <= r -> P r = []) /\ execs eager P M M' /\
    (forall v, In v (concat (map outputs is)) \/ In v I -> hold v M' (run_items X is v)) /\
    (forall r v o, U v -> ~ In v (concat (map touched is)) -> M' r v o = M r v o).
Proof.
  induction is as [|i is IH]; intros I M X OK IU HI.
  - exists (fun _ => []), M. split; [reflexivity|]. split; [reflexivity|]. split; [apply execs_nil; reflexivity|]. split; [|reflexivity]. intros v [[]|Hv]. apply HI, Hv.
  - assert (OK' : match i with IStmt s => stmt_ok n D O U I s | IAccess a => access_ok n D U I a end /\ items_ok n D O U (outputs i ++ I) is) by (inversion OK; subst; split; assumption).
    destruct OK' as [OI OS]. destruct (item_achieves i I M X OI IU HI) as (P1 & M1 & A1 & A2 & A3 & A4 & A5).
    destruct (IH (outputs i ++ I) M1 (run_item X i) OS) as (P2 & M2 & B1 & B2 & B3 & B4 & B5).
    { intros v Hv. apply in_app_or in Hv as [Hv|Hv]; [|apply IU, Hv]. destruct i as [s|a]; [destruct Hv as [<-|[]]; apply (so_lhs _ _ _ _ _ _ OI)|exact (items_used I a OI v Hv)]. }
    { exact A4. }
    exists (fun r => P1 r ++ P2 r), M2. split; [|split; [|split; [|split]]].
    + intros r Hr. unfold items_program. cbn [collectL]. rewrite A1 by exact Hr. cbn [bind]. unfold items_program in B1. rewrite B1 by exact Hr. reflexivity.
    + intros r Hr. rewrite A2, B2 by exact Hr. reflexivity.
    + exact (execs_app eager _ _ _ _ _ A3 B3).
    + intros v Hv. apply B4. cbn [map concat] in Hv. rewrite in_app_iff in Hv. rewrite in_app_iff. tauto.
    + intros r v o Uv NE. cbn [map concat] in NE. rewrite in_app_iff in NE. rewrite B5, A5; tauto.
Qed.

Lemma items_end is I (M : nat -> nat -> Z -> V) X : items_ok n D O U I is -> (forall v, In v I -> U v) -> (forall v, In v I -> hold v M (X v)) ->
  exists P N, (forall r, r < n -> items_program D O buf is r = Some (P r)) /\ (forall r, n <= r -> P r = []) /\
    forall k s, gsteps eager k {| gprog := P; gmem := M; gchan := fun _ _ => [] |} s ->
      k <= N /\
      ((exists r t, pstep eager r s = Some t) \/
       ((forall r, gprog s r = []) /\ (forall p q, gchan s p q = []) /\
        (forall v, In v (concat (map outputs is)) \/ In v I -> hold v (gmem s) (run_items X is v)))).
Proof.
  intros OK IU HI. destruct (items_achieve is I M X OK IU HI) as (P & M' & A1 & A2 & A3 & A4 & A5).
  destruct (A3 {| gprog := P; gmem := M; gchan := fun _ _ => [] |} (fun _ => [])) as (N & f & G & F1 & F2 & F3).
  { intros r. cbn. rewrite app_nil_r. reflexivity. } { intros r. intros v o; reflexivity. } { intros p q; reflexivity. }
  exists P, N. split; [exact A1|]. split; [exact A2|]. intros k s Gs.
  destruct (confluence eager k _ s Gs N f G (quiet_stuck eager f F1)) as (L & f' & G' & Q). split; [exact L|].
  inversion G' as [|m r ? s1 ? E1 G2 Em]; subst.
  - right. destruct Q as (Q1 & Q2 & Q3). split; [|split].
    + intros r. rewrite <- Q1. apply F1.
    + intros p q. rewrite <- Q3. apply F3.
    + intros v Hv r sb ext l g E1 E2 E3 E4. rewrite <- Q2, F2. apply (A4 v Hv r sb ext l g E1 E2 E3 E4).
  - left. eauto.
Qed.
End R.
