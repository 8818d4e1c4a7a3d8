From Coq Require Import List Arith ZArith Lia Bool.
From Verif Require Import Base Dist DistProofs Traversal TraversalProofs Map MapProofs ParAssign ParExecProofs ParAssignProofs DBlock.
Import ListNotations.
Local Open Scope nat_scope.

Lemma in_rangeb_iff ext i : in_rangeb ext i = true <-> in_range ext i.
Proof.
  revert i. induction ext as [|e es IH]; intros [|x xs]; cbn [in_rangeb]; split; intros H; try discriminate; try constructor; try (inversion H; fail).
  - apply andb_true_iff in H as [H _]. apply Nat.ltb_lt. exact H.
  - apply andb_true_iff in H as [_ H]. apply IH. exact H.
  - inversion H as [|? ? ? ? A B]; subst. apply andb_true_iff. split; [apply Nat.ltb_lt; exact A|apply IH; exact B].
Qed.
Lemma index_eqb_iff a b : index_eqb a b = true <-> a = b.
Proof. unfold index_eqb. destruct (list_eq_dec Nat.eq_dec a b); split; congruence. Qed.
Lemma upd_same {A} (f : nat -> A) r x : upd f r x r = x.
Proof. unfold upd. rewrite Nat.eqb_refl. reflexivity. Qed.
Lemma upd_other {A} (f : nat -> A) r x i : i <> r -> upd f r x i = f i.
Proof. intros H. unfold upd. destruct (Nat.eqb_spec i r); [contradiction|reflexivity]. Qed.

Section Map1.
Variable a : amap.
Hypothesis Ha : amap_ok a.
Lemma a_home g : in_range (a_ext a) g -> exists sb l ext pr, a_sfg a g = Some sb /\ a_lfg a g = Some l /\ a_lext a sb = Some ext /\ in_range ext l /\
  a_gfl a sb l = Some g /\ a_first a sb = Some pr /\ In pr (a_pvec a) /\ a_subblock a pr = Some sb.
Proof.
  intros Hg. pose proof (map_partitioned_lemma _ (ok_dims a Ha)) as P.
  assert (exists sb l ext, a_sfg a g = Some sb /\ a_lfg a g = Some l /\ a_lext a sb = Some ext /\ in_range ext l /\ a_gfl a sb l = Some g /\ sb < map_num_subblocks (a_dims a)) as (sb & l & ext & A1 & A2 & A3 & A4 & A5 & A6).
  { unfold a_sfg, a_lfg. destruct (a_rep a) eqn:R.
    - exists 0, g, (a_ext a). unfold a_lext, a_gfl. rewrite R. rewrite (whole_num _ (ok_rep a Ha R)). cbn. repeat split; auto.
    - destruct (mp_home _ P g Hg) as (sb & p & l & ext & B1 & B2 & _ & _ & _ & B3 & B4 & B5 & B6). exists sb, l, ext. rewrite (a_lx a Ha), (a_gf a Ha sb ext l B4 B5). auto 10. }
  destruct (a_procs a Ha sb A6) as (ps & f & C1 & C2 & C3 & C4). apply C4 in C3.
  exists sb, l, ext, f. repeat split; auto. apply (a_sub_iff a Ha). eauto.
Qed.
Lemma a_unique r sb' ext' l' g sb l : a_subblock a r = Some sb' -> a_lext a sb' = Some ext' -> in_range ext' l' -> a_gfl a sb' l' = Some g ->
  a_sfg a g = Some sb -> a_lfg a g = Some l -> sb' = sb /\ l' = l.
Proof.
  intros S E R G. pose proof (map_partitioned_lemma _ (ok_dims a Ha)) as P. unfold a_sfg, a_lfg. destruct (a_rep a) eqn:Rp.
  - intros [= <-] [= <-]. unfold a_lext, a_gfl in *. rewrite Rp in *. destruct (Nat.eqb_spec sb' 0); [|discriminate]. injection G as <-. auto.
  - rewrite (a_lx a Ha) in E. rewrite (a_gf a Ha sb' ext' l' E R) in G. destruct (mp_back _ P sb' ext' l' E R) as (g' & B1 & _ & B2 & B3). intros. split; congruence.
Qed.
Lemma lsize_own r sb ext : a_subblock a r = Some sb -> a_lext a sb = Some ext -> lsize a r = Some ext.
Proof. intros A B. unfold lsize. rewrite A. exact B. Qed.
End Map1.

Section Run.
Variable V : Type.
Variables (n : nat) (D : nat -> amap) (U : nat -> Prop).
Hypothesis Dok : forall v, U v -> amap_ok (D v).
Hypothesis Dn : forall v, U v -> forall p, In p (a_pvec (D v)) -> p < n.

(** ** One processor *)
Lemma no_comm_all v r : U v -> no_comm n (D v) = true -> r < n -> a_rep (D v) = true /\ a_subblock (D v) r = Some 0.
Proof.
  intros Hv H Hr. unfold no_comm in H. apply andb_true_iff in H as [R L]. apply Nat.eqb_eq in L. split; [exact R|].
  assert (I : In r (a_pvec (D v))).
  { assert (incl (seq 0 n) (a_pvec (D v))) as Q; [|apply Q, in_seq; lia]. apply NoDup_length_incl; [exact (ok_pvec _ (Dok v Hv))|rewrite seq_length; lia|].
    intros p Hp. apply in_seq. pose proof (Dn v Hv p Hp). lia. }
  unfold a_subblock. rewrite R. unfold rep_subblock. apply rank_some in I as (k & ->). reflexivity.
Qed.
Lemma lget_ok v X r (m : nat -> list nat -> V) sb ext l g : U v -> holds_of V D U X r m -> a_subblock (D v) r = Some sb -> a_lext (D v) sb = Some ext -> in_range ext l ->
  a_gfl (D v) sb l = Some g -> lget V (D v) r (m v) l = Some (X v g).
Proof.
  intros Hv H S E R G. unfold lget. rewrite (lsize_own _ _ _ _ S E). cbn [bind]. rewrite (proj2 (in_rangeb_iff _ _) R). f_equal. eapply H; eassumption.
Qed.
Lemma local_get_ok v X r (m : nat -> list nat -> V) g : U v -> holds_of V D U X r m -> no_comm n (D v) = true -> r < n -> in_range (a_ext (D v)) g -> lget V (D v) r (m v) g = Some (X v g).
Proof.
  intros Hv H N Hr Hg. destruct (no_comm_all v r Hv N Hr) as [R S]. apply (lget_ok v X r m 0 (a_ext (D v)) g g Hv H S); [|exact Hg|]; unfold a_lext, a_gfl; rewrite R; reflexivity.
Qed.
Lemma root_ok v g : U v -> in_range (a_ext (D v)) g -> exists pr, root (D v) g = Some pr /\ pr < n.
Proof.
  intros Hv Hg. destruct (a_home _ (Dok v Hv) g Hg) as (sb & l & ext & pr & A1 & _ & _ & _ & _ & A6 & A7 & _). exists pr. unfold root. rewrite A1. cbn [bind]. split; [exact A6|exact (Dn v Hv pr A7)].
Qed.
Lemma own_ok v X r (m : nat -> list nat -> V) g : U v -> holds_of V D U X r m -> in_range (a_ext (D v)) g -> root (D v) g = Some r -> own_value V (D v) r (m v) g = Some (X v g).
Proof.
  intros Hv H Hg Rt. destruct (a_home _ (Dok v Hv) g Hg) as (sb & l & ext & pr & A1 & A2 & A3 & A4 & A5 & A6 & A7 & A8). unfold root in Rt. rewrite A1 in Rt. cbn [bind] in Rt. assert (pr = r) by congruence. subst pr.
  unfold own_value. rewrite A1. cbn [bind]. unfold same_sb. rewrite A8, Nat.eqb_refl, A2. cbn [bind]. eapply lget_ok; eassumption.
Qed.
Lemma put_ok v X r (m : nat -> list nat -> V) g x : U v -> holds_of V D U X r m -> in_range (a_ext (D v)) g ->
  exists m', block_put V (D v) r (m v) g x = Some m' /\ holds_of V D U (set V X v g x) r (upd m v m').
Proof.
  intros Hv H Hg. destruct (a_home _ (Dok v Hv) g Hg) as (sb & l & ext & pr & A1 & A2 & A3 & A4 & A5 & _).
  unfold block_put. rewrite A1. cbn [bind]. unfold same_sb. destruct (a_subblock (D v) r) as [s|] eqn:S; [destruct (Nat.eqb_spec s sb) as [->|N]|].
  - rewrite A2. cbn [bind]. unfold lput. rewrite (lsize_own _ _ _ _ S A3). cbn [bind]. rewrite (proj2 (in_rangeb_iff _ _) A4). eexists. split; [reflexivity|].
    intros w Hw sb' ext' l' g' S' E' R' G'. unfold set. destruct (Nat.eqb_spec w v) as [->|Nw]; cbn [andb].
    + rewrite upd_same. destruct (index_eqb g' g) eqn:Eg.
      * apply index_eqb_iff in Eg. subst g'. destruct (a_unique _ (Dok v Hv) r sb' ext' l' g sb l S' E' R' G' A1 A2) as [_ ->]. rewrite (proj2 (index_eqb_iff l l) eq_refl). reflexivity.
      * destruct (index_eqb l' l) eqn:El; [|eapply H; eassumption]. exfalso. apply index_eqb_iff in El. subst l'. assert (sb' = sb) by congruence. subst sb'. assert (g' = g) by congruence. subst g'.
        rewrite (proj2 (index_eqb_iff g g) eq_refl) in Eg. discriminate.
    + rewrite upd_other by exact Nw. eapply H; eassumption.
  - eexists. split; [reflexivity|]. intros w Hw sb' ext' l' g' S' E' R' G'. unfold set. destruct (Nat.eqb_spec w v) as [->|Nw]; cbn [andb].
    + rewrite upd_same. destruct (index_eqb g' g) eqn:Eg; [|eapply H; eassumption]. exfalso. apply index_eqb_iff in Eg. subst g'.
      destruct (a_unique _ (Dok v Hv) r sb' ext' l' g sb l S' E' R' G' A1 A2) as [-> _]. congruence.
    + rewrite upd_other by exact Nw. eapply H; eassumption.
  - eexists. split; [reflexivity|]. intros w Hw sb' ext' l' g' S' E' R' G'. unfold set. destruct (Nat.eqb_spec w v) as [->|Nw]; cbn [andb]; [congruence|].
    rewrite upd_other by exact Nw. eapply H; eassumption.
Qed.

(** ** The sequential program, step by step *)
Record sst := { sX : nat -> list nat -> V; sp : prog V; sh : list V; sc : nat }.
Definition sstep (s : sst) : sst :=
  match sp s with
  | Done => s
  | Put v g x k => {| sX := set V (sX s) v g x; sp := k; sh := sh s; sc := sc s |}
  | Get v g k => {| sX := sX s; sp := k (sX s v g); sh := sh s ++ [sX s v g]; sc := if no_comm n (D v) then sc s else S (sc s) |}
  end.
Variables (X0 : nat -> list nat -> V) (p0 : prog V).
Hypothesis Pok : prog_ok V D U p0.
Fixpoint sit (j : nat) : sst := match j with O => {| sX := X0; sp := p0; sh := []; sc := 0 |} | S i => sstep (sit i) end.
Lemma sit_ok j : prog_ok V D U (sp (sit j)).
Proof.
  induction j as [|j IH]; [exact Pok|]. cbn [sit]. unfold sstep. destruct (sp (sit j)) as [|v g x k|v g k] eqn:E; [rewrite E; exact I|destruct IH as (_ & _ & H); exact H|destruct IH as (_ & _ & H); apply H].
Qed.
Lemma sit_hist j : sh (sit j) ++ seq_got V (sX (sit j)) (sp (sit j)) = seq_got V X0 p0.
Proof.
  induction j as [|j IH]; [reflexivity|]. cbn [sit]. unfold sstep. destruct (sp (sit j)) as [|v g x k|v g k] eqn:E; [rewrite E; exact IH| |]; cbn [sX sp sh]; rewrite <- IH; cbn [seq_got]; [reflexivity|]. rewrite <- app_assoc. reflexivity.
Qed.
Lemma sit_final j : seq_final V (sX (sit j)) (sp (sit j)) = seq_final V X0 p0.
Proof.
  induction j as [|j IH]; [reflexivity|]. cbn [sit]. unfold sstep. destruct (sp (sit j)) as [|v g x k|v g k] eqn:E; [rewrite E; exact IH| |]; cbn [sX sp sh]; rewrite <- IH; reflexivity.
Qed.
Lemma sc_mono i j : i <= j -> sc (sit i) <= sc (sit j).
Proof.
  induction 1 as [|j _ IH]; [lia|]. cbn [sit]. unfold sstep. destruct (sp (sit j)) as [| |v g k]; cbn [sc]; try exact IH. destruct (no_comm n (D v)); lia.
Qed.
(** The broadcast made at step [j]. *)
Definition bc (j : nat) (pr : nat) (x : V) : Prop := exists v g k, sp (sit j) = Get v g k /\ no_comm n (D v) = false /\ root (D v) g = Some pr /\ x = sX (sit j) v g.
Lemma bc_fun j pr x pr' x' : bc j pr x -> bc j pr' x' -> pr = pr' /\ x = x'.
Proof. intros (v & g & k & A & B & C & ->) (v' & g' & k' & A' & B' & C' & ->). rewrite A in A'. injection A' as <- <- <-. split; congruence. Qed.
Lemma bc_next j pr x : bc j pr x -> sc (sit (S j)) = S (sc (sit j)).
Proof. intros (v & g & k & A & B & _). cbn [sit]. unfold sstep. rewrite A, B. reflexivity. Qed.
Lemma bc_inj i j pr x pr' x' : bc i pr x -> bc j pr' x' -> sc (sit i) = sc (sit j) -> i = j.
Proof.
  intros A B E. pose proof (bc_next _ _ _ A). pose proof (bc_next _ _ _ B). destruct (lt_eq_lt_dec i j) as [[L|L]|L]; [|exact L|].
  - pose proof (sc_mono (S i) j L). lia.
  - pose proof (sc_mono (S j) i L). lia.
Qed.

Record Inv (s : state V) (J : nat -> nat) : Prop := {
  i_todo : forall r, r < n -> todo s r = sp (sit (J r));
  i_got : forall r, r < n -> got s r = sh (sit (J r));
  i_cnt : forall r, r < n -> cnt s r = sc (sit (J r));
  i_mem : forall r, r < n -> holds_of V D U (sX (sit (J r))) r (mem_ s r);
  i_post : forall j pr x, bc j pr x -> posted s (sc (sit j)) = if j <? J pr then Some (pr, x) else None }.
Definition adv (J : nat -> nat) (r : nat) : nat -> nat := upd J r (S (J r)).

(** The broadcasts are unaffected by a step that makes none. *)
Lemma post_same s J r : Inv s J -> (forall x, ~ bc (J r) r x) -> forall j pr x, bc j pr x -> posted s (sc (sit j)) = if j <? adv J r pr then Some (pr, x) else None.
Proof.
  intros I N j pr x B. rewrite (i_post s J I j pr x B). unfold adv. destruct (Nat.eq_dec pr r) as [->|E]; [rewrite upd_same|rewrite upd_other by exact E; reflexivity].
  destruct (Nat.ltb_spec j (J r)), (Nat.ltb_spec j (S (J r))); try lia; try reflexivity. assert (j = J r) by lia. subst j. destruct (N x B).
Qed.
Lemma next_inv s J r m t g c ps : Inv s J -> r < n ->
  t = sp (sstep (sit (J r))) -> g = sh (sstep (sit (J r))) -> c = sc (sstep (sit (J r))) -> holds_of V D U (sX (sstep (sit (J r)))) r m ->
  (forall j pr x, bc j pr x -> ps (sc (sit j)) = if j <? adv J r pr then Some (pr, x) else None) ->
  forall mm tt gg cc, (mm r = m /\ forall i, i <> r -> mm i = mem_ s i) -> (tt r = t /\ forall i, i <> r -> tt i = todo s i) -> (gg r = g /\ forall i, i <> r -> gg i = got s i) -> (cc r = c /\ forall i, i <> r -> cc i = cnt s i) ->
  Inv {| mem_ := mm; todo := tt; got := gg; cnt := cc; posted := ps |} (adv J r).
Proof.
  intros I Hr Et Eg Ec Hm Hp mm tt gg cc [M1 M2] [T1 T2] [G1 G2] [C1 C2]. constructor; cbn [mem_ todo got cnt posted]; try exact Hp;
    intros i Hi; unfold adv; destruct (Nat.eq_dec i r) as [->|N]; rewrite ?upd_same; rewrite ?(upd_other J r _ i N).
  - rewrite T1, Et. reflexivity.
  - rewrite (T2 i N). apply (i_todo s J I i Hi).
  - rewrite G1, Eg. reflexivity.
  - rewrite (G2 i N). apply (i_got s J I i Hi).
  - rewrite C1, Ec. reflexivity.
  - rewrite (C2 i N). apply (i_cnt s J I i Hi).
  - rewrite M1. exact Hm.
  - rewrite (M2 i N). apply (i_mem s J I i Hi).
Qed.
Lemma upd_pair {A} (f : nat -> A) r x : upd f r x r = x /\ forall i, i <> r -> upd f r x i = f i.
Proof. split; [apply upd_same|intros; apply upd_other; assumption]. Qed.
Lemma keep_pair {A} (f : nat -> A) r x : x = f r -> f r = x /\ forall i : nat, i <> r -> f i = f i.
Proof. intros ->. split; reflexivity. Qed.

(** Every step either waits - when the program is finished or the root has not
    broadcast yet - or advances. *)
Lemma step_ok s J r : Inv s J -> r < n ->
  (step V n D s r = Wait /\ (sp (sit (J r)) = Done \/ exists pr x, bc (J r) pr x /\ pr <> r /\ pr < n /\ J pr <= J r)) \/
  (sp (sit (J r)) <> Done /\ exists s', step V n D s r = Next s' /\ Inv s' (adv J r)).
Proof.
  intros I Hr. pose proof (sit_ok (J r)) as P. unfold step. rewrite (i_todo s J I r Hr). pose proof (i_mem s J I r Hr) as M.
  destruct (sp (sit (J r))) as [|v g x k|v g k] eqn:E; [left; auto| |].
  - right. split; [discriminate|]. destruct P as (Hv & Hg & _). destruct (put_ok v _ r (mem_ s r) g x Hv M Hg) as (m' & E1 & E2). rewrite E1. eexists. split; [reflexivity|].
    refine (next_inv s J r _ _ _ _ _ I Hr _ _ _ _ _ _ _ _ _ (upd_pair _ _ _) (upd_pair _ _ _) (keep_pair _ _ _ eq_refl) (keep_pair _ _ _ eq_refl)).
    + unfold sstep. rewrite E. reflexivity.
    + unfold sstep. rewrite E. cbn [sh]. apply (i_got s J I r Hr).
    + unfold sstep. rewrite E. cbn [sc]. apply (i_cnt s J I r Hr).
    + unfold sstep. rewrite E. exact E2.
    + apply post_same; [exact I|]. intros y (v' & g' & k' & A & _). congruence.
  - destruct P as (Hv & Hg & _). destruct (no_comm n (D v)) eqn:N.
    + right. split; [discriminate|]. rewrite (local_get_ok v _ r (mem_ s r) g Hv M N Hr Hg). eexists. split; [reflexivity|].
      refine (next_inv s J r _ _ _ _ _ I Hr _ _ _ _ _ _ _ _ _ (keep_pair _ _ _ eq_refl) (upd_pair _ _ _) (upd_pair _ _ _) (keep_pair _ _ _ eq_refl)).
      * unfold sstep. rewrite E. reflexivity.
      * unfold sstep. rewrite E. cbn [sh]. rewrite (i_got s J I r Hr). reflexivity.
      * unfold sstep. rewrite E, N. cbn [sc]. apply (i_cnt s J I r Hr).
      * unfold sstep. rewrite E. exact M.
      * apply post_same; [exact I|]. intros y (v' & g' & k' & A & B & _). congruence.
    + destruct (root_ok v g Hv Hg) as (pr & Rt & Hpr). rewrite Rt. assert (B : bc (J r) pr (sX (sit (J r)) v g)) by (exists v, g, k; auto).
      pose proof (i_post s J I _ _ _ B) as Ps. rewrite <- (i_cnt s J I r Hr) in Ps. destruct (Nat.eqb_spec pr r) as [->|Npr].
      * right. split; [discriminate|]. rewrite (own_ok v _ r (mem_ s r) g Hv M Hg Rt), Ps, Nat.ltb_irrefl. eexists. split; [reflexivity|].
        refine (next_inv s J r _ _ _ _ _ I Hr _ _ _ _ _ _ _ _ _ (keep_pair _ _ _ eq_refl) (upd_pair _ _ _) (upd_pair _ _ _) (upd_pair _ _ _)).
        -- unfold sstep. rewrite E. reflexivity.
        -- unfold sstep. rewrite E. cbn [sh]. rewrite (i_got s J I r Hr). reflexivity.
        -- unfold sstep. rewrite E, N. cbn [sc]. rewrite (i_cnt s J I r Hr). reflexivity.
        -- unfold sstep. rewrite E. exact M.
        -- intros j pr x Bj. rewrite (i_cnt s J I r Hr). destruct (Nat.eq_dec (sc (sit j)) (sc (sit (J r)))) as [Ej|Ej].
           ++ assert (j = J r) by (eapply bc_inj; eassumption). subst j. destruct (bc_fun _ _ _ _ _ Bj B) as [-> ->]. rewrite upd_same. unfold adv. rewrite upd_same. destruct (Nat.ltb_spec (J r) (S (J r))); [reflexivity|lia].
           ++ rewrite upd_other by exact Ej. rewrite (i_post s J I j pr x Bj). unfold adv. destruct (Nat.eq_dec pr r) as [->|E']; [rewrite upd_same|rewrite upd_other by exact E'; reflexivity].
              destruct (Nat.ltb_spec j (J r)), (Nat.ltb_spec j (S (J r))); try lia; try reflexivity. assert (j = J r) by lia. subst j. contradiction.
      * rewrite Ps. destruct (Nat.ltb_spec (J r) (J pr)) as [L|L].
        -- right. split; [discriminate|]. rewrite Nat.eqb_refl. eexists. split; [reflexivity|].
           refine (next_inv s J r _ _ _ _ _ I Hr _ _ _ _ _ _ _ _ _ (keep_pair _ _ _ eq_refl) (upd_pair _ _ _) (upd_pair _ _ _) (upd_pair _ _ _)).
           ++ unfold sstep. rewrite E. reflexivity.
           ++ unfold sstep. rewrite E. cbn [sh]. rewrite (i_got s J I r Hr). reflexivity.
           ++ unfold sstep. rewrite E, N. cbn [sc]. rewrite (i_cnt s J I r Hr). reflexivity.
           ++ unfold sstep. rewrite E. exact M.
           ++ apply post_same; [exact I|]. intros y By. destruct (bc_fun _ _ _ _ _ By B) as [<- _]. contradiction.
        -- left. split; [reflexivity|]. right. exists pr, (sX (sit (J r)) v g). auto.
Qed.
Lemma exec_ok sched : forall s J, Inv s J -> Forall (fun r => r < n) sched -> exists s' J', exec V n D s sched = Some s' /\ Inv s' J'.
Proof.
  induction sched as [|r rest IH]; intros s J I F; [exists s, J; split; [reflexivity|exact I]|]. inversion F as [|? ? Hr F']; subst. cbn [exec].
  destruct (step_ok s J r I Hr) as [[-> _]|[_ (s' & -> & I')]]; [apply (IH s J I F')|apply (IH s' _ I' F')].
Qed.

(** ** Nobody waits for ever *)
Fixpoint slen (X : nat -> list nat -> V) (p : prog V) : nat :=
  match p with Done => 0 | Put v g x k => S (slen (set V X v g x) k) | Get v g k => S (slen X (k (X v g))) end.
Lemma sit_len j : slen (sX (sit j)) (sp (sit j)) = slen X0 p0 - j.
Proof.
  induction j as [|j IH]; [cbn; lia|]. cbn [sit]. unfold sstep. destruct (sp (sit j)) as [|v g x k|v g k] eqn:E; [rewrite E|cbn [sX sp]|cbn [sX sp]]; cbn [slen] in IH |- *; lia.
Qed.
Lemma done_iff j : sp (sit j) = Done <-> slen X0 p0 <= j.
Proof. pose proof (sit_len j) as L. destruct (sp (sit j)); cbn [slen] in L; split; intros; try discriminate; try reflexivity; lia. Qed.
Definition left_ (J : nat -> nat) : nat := list_sum (map (fun r => slen X0 p0 - J r) (seq 0 n)).
Lemma min_exists (J : nat -> nat) k : 0 < k -> exists r, r < k /\ forall i, i < k -> J r <= J i.
Proof.
  induction k as [|k IH]; [lia|]. intros _. destruct k; [exists 0; split; [lia|]; intros i Hi; replace i with 0 by lia; lia|].
  destruct (IH ltac:(lia)) as (r & Hr & M). destruct (le_lt_dec (J r) (J (S k))).
  - exists r. split; [lia|]. intros i Hi. destruct (Nat.eq_dec i (S k)) as [->|]; [assumption|apply M; lia].
  - exists (S k). split; [lia|]. intros i Hi. destruct (Nat.eq_dec i (S k)) as [->|]; [lia|]. specialize (M i ltac:(lia)). lia.
Qed.
Lemma progress s J : Inv s J -> (exists r, r < n /\ todo s r <> Done) -> exists r s', r < n /\ sp (sit (J r)) <> Done /\ step V n D s r = Next s' /\ Inv s' (adv J r).
Proof.
  intros I (r0 & Hr0 & Nd). rewrite (i_todo s J I r0 Hr0), done_iff in Nd. destruct (min_exists J n ltac:(lia)) as (r & Hr & M).
  assert (Nr : sp (sit (J r)) <> Done) by (rewrite done_iff; specialize (M r0 Hr0); lia).
  destruct (step_ok s J r I Hr) as [[_ [E|(pr & x & B & N & Hpr & L)]]|[_ (s' & E & I')]]; [contradiction| |exists r, s'; auto].
  assert (Ej : J pr = J r) by (specialize (M pr Hpr); lia). exists pr.
  destruct (step_ok s J pr I Hpr) as [[_ [E|(pr' & x' & B' & N' & _)]]|[Q (s' & E & I')]]; [rewrite Ej in E; contradiction| |exists s'; auto].
  rewrite Ej in B'. destruct (bc_fun _ _ _ _ _ B B') as [-> _]. contradiction.
Qed.
Lemma left_adv J r : r < n -> J r < slen X0 p0 -> left_ (adv J r) < left_ J.
Proof.
  intros Hr Hl. unfold left_, adv. assert (G : forall k, list_sum (map (fun i => slen X0 p0 - upd J r (S (J r)) i) (seq 0 k)) + (if r <? k then 1 else 0) = list_sum (map (fun i => slen X0 p0 - J i) (seq 0 k))).
  { induction k as [|k IH]; [reflexivity|]. rewrite seq_S, !map_app, !list_sum_app. cbn [map list_sum fold_right Nat.add]. rewrite <- IH. destruct (Nat.eq_dec k r) as [->|N].
    - rewrite upd_same. destruct (Nat.ltb_spec r r), (Nat.ltb_spec r (S r)); lia.
    - rewrite (upd_other J r _ k N). destruct (Nat.ltb_spec r k), (Nat.ltb_spec r (S k)); lia. }
  pose proof (G n) as Gn. destruct (Nat.ltb_spec r n); lia.
Qed.
Lemma finishes s J : Inv s J -> exists sched s', Forall (fun r => r < n) sched /\ exec V n D s sched = Some s' /\ forall r, r < n -> todo s' r = Done.
Proof.
  remember (left_ J) as k eqn:Ek. revert s J Ek. induction k as [k IH] using lt_wf_ind. intros s J Ek I.
  assert (Dec : (forall r, r < n -> todo s r = Done) \/ exists r, r < n /\ todo s r <> Done).
  { assert (Q : forall j, j <= n -> (forall r, r < j -> todo s r = Done) \/ exists r, r < n /\ todo s r <> Done).
    { induction j as [|j IHj]; intros Hj; [left; lia|]. destruct (IHj ltac:(lia)) as [A|A]; [|right; exact A]. destruct (todo s j) as [|v g x k'|v g k'] eqn:Ej; [left; intros r Hr; destruct (Nat.eq_dec r j) as [->|]; [exact Ej|apply A; lia]| |]; right; exists j; (split; [lia|rewrite Ej; discriminate]). }
    apply (Q n). lia. }
  destruct Dec as [A|A]; [exists [], s; repeat split; [constructor|exact A]|].
  destruct (progress s J I A) as (r & s1 & Hr & Nd & St & I'). rewrite done_iff in Nd.
  destruct (IH (left_ (adv J r)) ltac:(subst k; apply left_adv; lia) s1 (adv J r) eq_refl I') as (sched & s' & F & Ex & Fin).
  exists (r :: sched), s'. split; [constructor; assumption|]. split; [cbn [exec]; rewrite St; exact Ex|exact Fin].
Qed.
Lemma start_inv m : (forall r, r < n -> holds_of V D U X0 r (m r)) -> Inv (start V m p0) (fun _ => 0).
Proof. intros H. constructor; cbn; auto. Qed.
End Run.

Theorem elements_ok V n D (U : nat -> Prop) (X : nat -> list nat -> V) p m sched :
  (forall v, U v -> amap_ok (D v)) -> (forall v, U v -> forall q, In q (a_pvec (D v)) -> q < n) -> prog_ok V D U p ->
  (forall r, r < n -> holds_of V D U X r (m r)) -> Forall (fun r => r < n) sched ->
  exists s, exec V n D (start V m p) sched = Some s /\
    (forall r, r < n -> todo s r = Done -> got s r = seq_got V X p /\ holds_of V D U (seq_final V X p) r (mem_ s r)) /\
    ((exists r, r < n /\ todo s r <> Done) -> exists r s', r < n /\ step V n D s r = Next s') /\
    exists more s', Forall (fun r => r < n) more /\ exec V n D s more = Some s' /\ forall r, r < n -> todo s' r = Done.
Proof.
  intros Dok Dn Pok Hm Fs. destruct (exec_ok V n D U Dok Dn X p Pok sched _ _ (start_inv V n D U X p m Hm) Fs) as (s & J & Ex & I).
  exists s. split; [exact Ex|]. split; [|split].
  - intros r Hr Hd. pose proof (i_todo V n D U X p s J I r Hr) as Et. rewrite Hd in Et. symmetry in Et. split.
    + rewrite (i_got V n D U X p s J I r Hr). pose proof (sit_hist V n D X p (J r)) as Q. rewrite Et in Q. cbn [seq_got] in Q. rewrite app_nil_r in Q. exact Q.
    + pose proof (sit_final V n D X p (J r)) as Q. rewrite Et in Q. cbn [seq_final] in Q. rewrite <- Q. apply (i_mem V n D U X p s J I r Hr).
  - intros E. destruct (progress V n D U Dok Dn X p Pok s J I E) as (r & s' & A & _ & B & _). eauto.
  - apply (finishes V n D U Dok Dn X p Pok s J I).
Qed.
