(** Lemmas about the lifetimes of PyLife.v. *)
From Coq Require Import List Lia Bool Arith.
From Verif Require Import Base PyLife.
Import ListNotations.

Definition cnt (P : option obj -> bool) (h : nat -> option obj) (l : list nat) : nat := length (filter (fun o => P (h o)) l).

Lemma upd_same {A} (f : nat -> A) x v : upd f x v x = v.
Proof. unfold upd. rewrite Nat.eqb_refl. reflexivity. Qed.
Lemma upd_other {A} (f : nat -> A) x v y : y <> x -> upd f x v y = f y.
Proof. intros H. unfold upd. apply Nat.eqb_neq in H. rewrite H. reflexivity. Qed.

Lemma cnt_cons P h o l : cnt P h (o :: l) = Nat.b2n (P (h o)) + cnt P h l.
Proof. unfold cnt. cbn [filter]. destruct (P (h o)); reflexivity. Qed.
Lemma cnt_out P h o v l : ~ In o l -> cnt P (upd h o v) l = cnt P h l.
Proof.
  induction l as [|a l IH]; intros H; [reflexivity|]. rewrite !cnt_cons, IH by (intros X; apply H; right; exact X).
  rewrite upd_other; [reflexivity|]. intros ->. apply H. left. reflexivity.
Qed.
Lemma cnt_in P h o v l : NoDup l -> In o l -> cnt P (upd h o v) l + Nat.b2n (P (h o)) = cnt P h l + Nat.b2n (P v).
Proof.
  induction l as [|a l IH]; intros N I; [destruct I|]. inversion N as [|? ? Na Nl]; subst. rewrite !cnt_cons. destruct (Nat.eq_dec a o) as [->|E].
  - rewrite cnt_out by exact Na. rewrite upd_same. lia.
  - destruct I as [->|I]; [congruence|]. rewrite upd_other by exact E. specialize (IH Nl I). lia.
Qed.
Lemma cnt_pos P h o l : In o l -> P (h o) = true -> 0 < cnt P h l.
Proof.
  intros I H. unfold cnt. assert (X : In o (filter (fun o => P (h o)) l)) by (apply filter_In; auto).
  destruct (filter _ l); [destruct X|cbn; lia].
Qed.
Lemma cnt_some P h l : 0 < cnt P h l -> exists o, In o l /\ P (h o) = true.
Proof.
  unfold cnt. intros H. destruct (filter (fun o => P (h o)) l) as [|o r] eqn:E; [cbn in H; lia|].
  exists o. apply (filter_In (fun o => P (h o))). rewrite E. left. reflexivity.
Qed.

Fixpoint names (p : list op) : list nat :=
  match p with
  | [] => []
  | NewBlock x :: p' | SubBlock x _ :: p' | MakeArray x _ :: p' => x :: names p'
  | _ :: p' => names p'
  end.
Lemma made_in p o : made p o = true <-> In o (names p).
Proof.
  induction p as [|c p IH]; [cbn; split; [discriminate|intros []]|].
  assert (X : forall x, (if x =? o then true else made p o) = true <-> x = o \/ In o (names p)).
  { intros x. destruct (Nat.eqb_spec x o) as [E|E]; [tauto|]. rewrite IH. tauto. }
  destruct c; cbn [made names In]; auto.
Qed.
Lemma made_out p o : made p o = false <-> ~ In o (names p).
Proof. rewrite <- made_in. destruct (made p o); split; congruence. Qed.
Lemma block_made p o : is_block p o = true -> made p o = true.
Proof. induction p as [|c p IH]; [discriminate|]. destruct c; cbn [is_block made]; auto; destruct (_ =? o); auto. Qed.
Definition block_on (s : nat) (x : option obj) : bool := match x with Some (Obj _ (IsBlock t)) => t =? s | _ => false end.
Definition array_on (b : nat) (x : option obj) : bool := match x with Some (Obj _ (IsArray _ c)) => c =? b | _ => false end.

Definition obj_ok (p : list op) (o : nat) (x : option obj) : Prop :=
  match x with
  | None => references p o = 0
  | Some x => refs x = references p o /\ 0 < refs x /\ made p o = true /\
    match what x with
    | IsBlock s => is_block p o = true /\ s = origin p o /\ In (NewBlock s) p
    | IsArray s b => is_block p o = false /\ array_of p o b = true /\ s = origin p o /\ s = origin p b /\ is_block p b = true
    end
  end.

Record inv (st : state) (p : list op) : Prop := Inv {
  i_names : NoDup (names p);
  i_heap : forall o, obj_ok p o (heap st o);
  i_shares : forall s, shares st s = cnt (block_on s) (heap st) (names p);
  i_pins : forall b, 0 < references p b -> is_block p b = true -> pins st b = cnt (array_on b) (heap st) (names p);
  i_freed : forall s, In s (freed st) <-> In (NewBlock s) p /\ shares st s = 0;
  i_once : NoDup (freed st);
  i_arrays : forall o n s b, heap st o = Some (Obj n (IsArray s b)) -> 0 < references p b }.

Lemma new_made p s : In (NewBlock s) p -> In s (names p).
Proof.
  induction p as [|c p IH]; [intros []|]. intros [->|H]; [left; reflexivity|]. specialize (IH H). destruct c; cbn [names]; auto; right; exact IH.
Qed.
Lemma not_made p o : made p o = false -> is_block p o = false.
Proof. intros H. destruct (is_block p o) eqn:E; [|reflexivity]. apply block_made in E. congruence. Qed.

(** An object made earlier is not changed by making another. *)
Lemma obj_new p c o' o x : (c = NewBlock o' \/ (exists b, c = SubBlock o' b) \/ (exists b, c = MakeArray o' b)) -> made p o' = false -> o <> o' ->
  obj_ok p o x -> obj_ok (c :: p) o x.
Proof.
  intros C M N H. assert (E : (o' =? o) = false) by (apply Nat.eqb_neq; auto).
  assert (K : references (c :: p) o = references p o /\ made (c :: p) o = made p o /\ is_block (c :: p) o = is_block p o /\ origin (c :: p) o = origin p o
    /\ (forall b, array_of (c :: p) o b = array_of p o b)).
  { destruct C as [-> | [[b ->] | [b ->]]]; cbn [references made is_block origin array_of]; rewrite E; auto. }
  destruct K as [K1 [K2 [K3 [K4 K5]]]]. destruct x as [x|]; cbn [obj_ok] in *; [|congruence].
  rewrite K1, K2, K3, K4. destruct H as [H1 [H2 [H3 H4]]]. split; [exact H1|]. split; [exact H2|]. split; [exact H3|].
  destruct (what x) as [s|s b].
  - destruct H4 as [A [B D]]. split; [exact A|]. split; [exact B|]. right. exact D.
  - rewrite K5. destruct H4 as [A [B [D [F G]]]]. split; [exact A|]. split; [exact B|]. split; [exact D|].
    assert (Nb : (o' =? b) = false).
    { apply Nat.eqb_neq. intros ->. apply not_made in M. congruence. }
    destruct C as [-> | [[y ->] | [y ->]]]; cbn [is_block origin]; rewrite ?Nb; auto.
Qed.

Lemma inv_start : inv start [].
Proof.
  constructor; cbn; auto; try constructor; try (intros; discriminate).
  - intros [].
  - intros [[] _].
Qed.

Lemma step_inv st p c : inv st p -> well_formed (c :: p) -> arrays_first (c :: p) ->
  exists st', step st c = Some st' /\ inv st' (c :: p).
Proof.
  intros [N H S P F D A] [_ W] [_ Q].
  assert (LV : forall o, 0 < references p o -> exists x, heap st o = Some x).
  { intros o L. specialize (H o). destruct (heap st o); [eauto|]. cbn in H. lia. }
  assert (BLK : forall b, 0 < references p b -> is_block p b = true -> exists n, heap st b = Some (Obj n (IsBlock (origin p b)))).
  { intros b L B. destruct (LV b L) as [[n w] E]. pose proof (H b) as Hb. rewrite E in Hb. cbn in Hb. destruct Hb as [_ [_ [_ Hw]]].
    destruct w as [s|s y]; [destruct Hw as [_ [-> _]]; eauto|destruct Hw; congruence]. }
  destruct c as [o|o b|o b|o|o|o]; cbn [step].
  - (* NewBlock *)
    cbn in W. assert (No : ~ In o (names p)) by (apply made_out; exact W).
    assert (Ho : heap st o = None). { pose proof (H o) as X. destruct (heap st o); [|reflexivity]. cbn in X. destruct X as [_ [_ [X _]]]. congruence. }
    eexists. split; [reflexivity|]. constructor; cbn [heap shares freed pins names].
    + constructor; assumption.
    + intros z. destruct (Nat.eq_dec z o) as [->|E].
      * rewrite upd_same. cbn. rewrite Nat.eqb_refl. repeat split; auto.
        -- clear - W. induction p as [|c p IH]; [reflexivity|]. destruct c as [x|x b|x b|x|x|x]; cbn [made origin] in *; try (apply IH; exact W); destruct (x =? o); try discriminate; apply IH; exact W.
      * rewrite upd_other by exact E. apply (obj_new p _ o); auto.
    + intros s. rewrite cnt_cons, cnt_out, upd_same by exact No. cbn [block_on]. destruct (Nat.eq_dec s o) as [->|E].
      * rewrite upd_same, Nat.eqb_refl. cbn [Nat.b2n]. rewrite <- S.
        assert (X : shares st o = 0).
        { destruct (shares st o) eqn:E; [reflexivity|]. exfalso. destruct (cnt_some (block_on o) (heap st) (names p)) as [z [I Hz]]; [rewrite <- S, E; lia|].
          pose proof (H z) as Y. destruct (heap st z) as [[n0 w]|]; [|discriminate]. destruct w as [t|]; [|discriminate]. cbn in Hz. apply Nat.eqb_eq in Hz. subst t.
          cbn in Y. destruct Y as [_ [_ [_ [_ [_ Y]]]]]. apply No. apply new_made. exact Y. }
        rewrite X. reflexivity.
      * rewrite upd_other by exact E. rewrite S. replace (o =? s) with false by (symmetry; apply Nat.eqb_neq; auto). reflexivity.
    + intros b. cbn [references is_block]. rewrite cnt_cons, cnt_out, upd_same by exact No. cbn [array_on Nat.b2n Nat.add].
      destruct (Nat.eqb_spec o b) as [->|E].
      * intros _ _. rewrite upd_same. destruct (cnt (array_on b) (heap st) (names p)) eqn:X; [reflexivity|]. exfalso.
        destruct (cnt_some (array_on b) (heap st) (names p)) as [z [I Hz]]; [lia|].
        pose proof (H z) as Y. destruct (heap st z) as [[n0 w]|]; [|discriminate]. destruct w as [|t c]; [discriminate|]. cbn in Hz. apply Nat.eqb_eq in Hz. subst c.
        cbn in Y. destruct Y as [_ [_ [_ [_ [_ [_ [_ Y]]]]]]]. apply not_made in W. congruence.
      * intros L B. rewrite upd_other by auto. apply P; assumption.
    + intros s. cbn [In]. destruct (Nat.eq_dec s o) as [->|E].
      * rewrite upd_same. split; [|intros [_ X]; discriminate]. intros X. apply F in X. destruct X as [X _]. apply new_made in X. contradiction.
      * rewrite upd_other by exact E. rewrite F. split; [tauto|]. intros [[X|X] Y]; [congruence|tauto].
    + exact D.
    + intros z n s b. cbn [references]. destruct (Nat.eq_dec z o) as [->|E].
      * rewrite upd_same. discriminate.
      * rewrite upd_other by exact E. intros X. destruct (o =? b); [lia|]. apply (A z n s b X).
  - (* SubBlock *)
    cbn in W. destruct W as [W [Wb Wr]]. assert (No : ~ In o (names p)) by (apply made_out; exact W).
    destruct (BLK b Wr Wb) as [nb Eb]. rewrite Eb. pose proof (H b) as Hb. rewrite Eb in Hb. cbn in Hb. destruct Hb as [_ [_ [Mb [_ [_ Rb]]]]].
    assert (Ho : heap st o = None). { pose proof (H o) as X. destruct (heap st o); [|reflexivity]. cbn in X. destruct X as [_ [_ [X _]]]. congruence. }
    set (t := origin p b) in *.
    eexists. split; [reflexivity|]. constructor; cbn [heap shares freed pins names].
    + constructor; assumption.
    + intros z. destruct (Nat.eq_dec z o) as [->|E].
      * rewrite upd_same. cbn. rewrite Nat.eqb_refl. repeat split; auto.
      * rewrite upd_other by exact E. apply (obj_new p _ o); eauto.
    + intros s. rewrite cnt_cons, cnt_out, upd_same by exact No. cbn [block_on]. destruct (Nat.eq_dec s t) as [->|E].
      * rewrite upd_same, Nat.eqb_refl. cbn [Nat.b2n]. rewrite <- S. lia.
      * rewrite upd_other by exact E. rewrite S. replace (t =? s) with false by (symmetry; apply Nat.eqb_neq; auto). reflexivity.
    + intros c. cbn [references is_block]. rewrite cnt_cons, cnt_out, upd_same by exact No. cbn [array_on Nat.b2n Nat.add].
      destruct (Nat.eqb_spec o c) as [->|E].
      * intros _ _. rewrite upd_same. destruct (cnt (array_on c) (heap st) (names p)) eqn:X; [reflexivity|]. exfalso.
        destruct (cnt_some (array_on c) (heap st) (names p)) as [z [I Hz]]; [lia|].
        pose proof (H z) as Y. destruct (heap st z) as [[n0 w]|]; [|discriminate]. destruct w as [|t' c']; [discriminate|]. cbn in Hz. apply Nat.eqb_eq in Hz. subst c'.
        cbn in Y. destruct Y as [_ [_ [_ [_ [_ [_ [_ Y]]]]]]]. apply not_made in W. congruence.
      * intros L B. rewrite upd_other by auto. apply P; assumption.
    + intros s. cbn [In]. destruct (Nat.eq_dec s t) as [->|E].
      * rewrite upd_same. split; [|intros [_ X]; lia]. intros X. apply F in X. destruct X as [_ X].
        exfalso. rewrite S in X. assert (0 < cnt (block_on t) (heap st) (names p)); [|lia].
        apply (cnt_pos _ _ b); [apply made_in; exact Mb|]. rewrite Eb. cbn. apply Nat.eqb_refl.
      * rewrite upd_other by exact E. rewrite F. split; [tauto|]. intros [[X|X] Y]; [discriminate|tauto].
    + exact D.
    + intros z n s c. cbn [references]. destruct (Nat.eq_dec z o) as [->|E].
      * rewrite upd_same. discriminate.
      * rewrite upd_other by exact E. intros X. destruct (o =? c); [lia|]. apply (A z n s c X).
  - (* MakeArray *)
    cbn in W. destruct W as [W [Wb Wr]]. assert (No : ~ In o (names p)) by (apply made_out; exact W).
    destruct (BLK b Wr Wb) as [nb Eb]. rewrite Eb.
    assert (Eob : o <> b) by (intros ->; apply not_made in W; congruence).
    assert (Ho : heap st o = None). { pose proof (H o) as X. destruct (heap st o); [|reflexivity]. cbn in X. destruct X as [_ [_ [X _]]]. congruence. }
    eexists. split; [reflexivity|]. constructor; cbn [heap shares freed pins names].
    + constructor; assumption.
    + intros z. destruct (Nat.eq_dec z o) as [->|E].
      * rewrite upd_same. cbn. rewrite Nat.eqb_refl. apply Nat.eqb_neq in Eob. rewrite Eob.
        repeat split; auto; [apply not_made; exact W|apply Nat.eqb_refl].
      * rewrite upd_other by exact E. apply (obj_new p _ o); eauto.
    + intros s. rewrite cnt_cons, cnt_out, upd_same by exact No. cbn [block_on Nat.b2n Nat.add]. apply S.
    + intros c. cbn [references is_block]. rewrite cnt_cons, cnt_out, upd_same by exact No. cbn [array_on].
      destruct (Nat.eqb_spec o c) as [->|E].
      * intros _ B. apply not_made in W. congruence.
      * intros L B. destruct (Nat.eq_dec c b) as [->|Ec].
        -- rewrite upd_same, Nat.eqb_refl. cbn [Nat.b2n]. rewrite (P b L B). lia.
        -- rewrite upd_other by exact Ec. replace (b =? c) with false by (symmetry; apply Nat.eqb_neq; auto). apply P; assumption.
    + intros s. cbn [In]. rewrite F. split; [tauto|]. intros [[X|X] Y]; [discriminate|tauto].
    + exact D.
    + intros z n s c. cbn [references]. destruct (Nat.eq_dec z o) as [->|E].
      * rewrite upd_same. intros X. injection X as _ _ <-. destruct (o =? b); [lia|exact Wr].
      * rewrite upd_other by exact E. intros X. destruct (o =? c); [lia|]. apply (A z n s c X).
  - (* Incref *)
    cbn in W. destruct (LV o W) as [x E]. rewrite E. pose proof (H o) as Ho. rewrite E in Ho. cbn in Ho. destruct Ho as [R [R0 [M K]]].
    eexists. split; [reflexivity|]. apply made_in in M.
    constructor; cbn [heap shares freed pins names].
    + exact N.
    + intros z. destruct (Nat.eq_dec z o) as [->|Ez].
      * rewrite upd_same. cbn [obj_ok refs what references]. rewrite Nat.eqb_refl. split; [lia|]. split; [lia|].
        split; [apply made_in; exact M|]. destruct (what x) as [s|s b]; [|exact K]. destruct K as [K1 [K2 K3]]. split; [exact K1|]. split; [exact K2|]. right. exact K3.
      * rewrite upd_other by exact Ez. specialize (H z). destruct (heap st z) as [y|]; cbn [obj_ok references] in *;
          (replace (o =? z) with false by (symmetry; apply Nat.eqb_neq; auto)); [|exact H].
        destruct H as [H1 [H2 [H3 H4]]]. split; [exact H1|]. split; [exact H2|]. split; [exact H3|].
        destruct (what y); [|exact H4]. destruct H4 as [K1 [K2 K3]]. split; [exact K1|]. split; [exact K2|]. right. exact K3.
    + intros s. pose proof (cnt_in (block_on s) (heap st) o (Some (Obj (refs x + 1) (what x))) _ N M) as X. rewrite E in X.
      destruct x as [n w]. cbn [block_on what refs] in X |- *. rewrite S. lia.
    + intros b L B. cbn [references is_block] in *. pose proof (cnt_in (array_on b) (heap st) o (Some (Obj (refs x + 1) (what x))) _ N M) as X. rewrite E in X.
      destruct x as [n w]. cbn [array_on what refs] in X |- *. rewrite P; [lia| |exact B]. destruct (Nat.eqb_spec o b) as [->|Eb]; [exact W|exact L].
    + intros s. cbn [In]. rewrite F. split; [tauto|]. intros [[X|X] Y]; [discriminate|tauto].
    + exact D.
    + intros z n s b. cbn [references]. destruct (Nat.eq_dec z o) as [->|Ez].
      * rewrite upd_same. intros X. destruct x as [m w]. cbn in X. injection X as _ ->. destruct (o =? b); [lia|]. apply (A o m s b E).
      * rewrite upd_other by exact Ez. intros X. destruct (o =? b); [lia|]. apply (A z n s b X).
  - (* Decref *)
    cbn in W. cbn in Q. destruct (LV o W) as [[m w] E]. rewrite E. pose proof (H o) as Ho. rewrite E in Ho. cbn in Ho. destruct Ho as [R [R0 [M K]]].
    pose proof M as M'. apply made_in in M.
    assert (OTH : forall z, z <> o -> obj_ok (Decref o :: p) z (heap st z)).
    { intros z Ez. specialize (H z). destruct (heap st z) as [y|]; cbn [obj_ok references] in *;
        (replace (o =? z) with false by (symmetry; apply Nat.eqb_neq; auto)); [|exact H].
      destruct H as [H1 [H2 [H3 H4]]]. split; [exact H1|]. split; [exact H2|]. split; [exact H3|].
      destruct (what y); [|exact H4]. destruct H4 as [K1 [K2 K3]]. split; [exact K1|]. split; [exact K2|]. right. exact K3. }
    destruct m as [|[|n]]; [lia| |].
    + (* the last reference *)
      destruct w as [s|s b].
      * (* a block *)
        destruct K as [K1 [K2 K3]]. eexists. split; [reflexivity|]. unfold release.
        assert (CB : forall u, cnt (block_on u) (upd (heap st) o None) (names p) = if u =? s then shares st s - 1 else shares st u).
        { intros u. pose proof (cnt_in (block_on u) (heap st) o None _ N M) as X. rewrite E in X. cbn [block_on Nat.b2n] in X. rewrite <- S in X.
          destruct (Nat.eqb_spec u s) as [->|Eu]; [rewrite Nat.eqb_refl in X; cbn [Nat.b2n] in X; lia|].
          replace (s =? u) with false in X by (symmetry; apply Nat.eqb_neq; auto). cbn [Nat.b2n] in X. lia. }
        assert (P1 : 0 < shares st s). { rewrite S. apply (cnt_pos _ _ o); [exact M|]. rewrite E. cbn. apply Nat.eqb_refl. }
        assert (NA : forall z n s0 b, heap st z = Some (Obj n (IsArray s0 b)) -> b <> o).
        { intros z n s0 b Ez ->. pose proof (H z) as Hz. rewrite Ez in Hz. cbn in Hz. destruct Hz as [Z1 [Z2 [_ [_ [Z3 _]]]]].
          specialize (Q (eq_sym R) z Z3). lia. }
        constructor; cbn [heap shares freed pins names].
        -- exact N.
        -- intros z. destruct (Nat.eq_dec z o) as [->|Ez]; [|rewrite upd_other by exact Ez; apply OTH; exact Ez].
           rewrite upd_same. cbn. rewrite Nat.eqb_refl. lia.
        -- intros u. rewrite CB. destruct (Nat.eqb_spec u s) as [->|Eu]; [rewrite upd_same; reflexivity|rewrite upd_other by exact Eu; reflexivity].
        -- intros b L B. cbn [references is_block] in *. pose proof (cnt_in (array_on b) (heap st) o None _ N M) as X. rewrite E in X. cbn [array_on Nat.b2n] in X.
           destruct (Nat.eqb_spec o b) as [->|Eb]; [lia|]. rewrite P by assumption. lia.
        -- intros u. cbn [In]. destruct (Nat.eq_dec u s) as [->|Eu].
           ++ rewrite upd_same. destruct (Nat.eqb_spec (shares st s - 1) 0) as [Z0|Z0].
              ** rewrite in_app_iff. split; [intros _; split; [right; exact K3|exact Z0]|intros _; right; left; reflexivity].
              ** rewrite F. split; [intros [_ X]; lia|intros [_ X]; lia].
           ++ rewrite upd_other by exact Eu. assert (X : In u (if shares st s - 1 =? 0 then freed st ++ [s] else freed st) <-> In u (freed st)).
              { destruct (shares st s - 1 =? 0); [|tauto]. rewrite in_app_iff. cbn. split; [intros [X|[X|[]]]; [exact X|congruence]|tauto]. }
              rewrite X, F. split; [tauto|]. intros [[Y|Y] Y']; [discriminate|tauto].
        -- destruct (Nat.eqb_spec (shares st s - 1) 0) as [Z0|Z0]; [|exact D].
           assert (Ns : ~ In s (freed st)) by (intros X; apply F in X; lia).
           clear - D Ns. induction (freed st) as [|a r IH]; cbn; [constructor; [intros []|constructor]|]. inversion D as [|? ? N1 N2]; subst.
           constructor; [|apply IH; [exact N2|intros X; apply Ns; right; exact X]]. rewrite in_app_iff. cbn. intros [X|[X|[]]]; [contradiction|]. apply Ns. left. auto.
        -- intros z n u b. cbn [references]. destruct (Nat.eq_dec z o) as [->|Ez]; [rewrite upd_same; discriminate|]. rewrite upd_other by exact Ez. intros X.
           pose proof (NA z n u b X) as Y. replace (o =? b) with false by (symmetry; apply Nat.eqb_neq; auto). apply (A z n u b X).
      * (* an array *)
        destruct K as [K1 [K2 [K3 [K4 K5]]]]. assert (L : 0 < references p b) by (apply (A o 1 s b E)).
        destruct (LV b L) as [xb Eb]. rewrite Eb. eexists. split; [reflexivity|].
        assert (Eob : o <> b) by (intros ->; congruence).
        constructor; cbn [heap shares freed pins names].
        -- exact N.
        -- intros z. destruct (Nat.eq_dec z o) as [->|Ez]; [|rewrite upd_other by exact Ez; apply OTH; exact Ez].
           rewrite upd_same. cbn. rewrite Nat.eqb_refl. lia.
        -- intros u. pose proof (cnt_in (block_on u) (heap st) o None _ N M) as X. rewrite E in X. cbn [block_on Nat.b2n] in X. rewrite S. lia.
        -- intros c Lc Bc. cbn [references is_block] in *. destruct (Nat.eqb_spec o c) as [->|Eoc]; [congruence|].
           pose proof (cnt_in (array_on c) (heap st) o None _ N M) as X. rewrite E in X. cbn [array_on Nat.b2n] in X. rewrite <- (P c Lc Bc) in X.
           destruct (Nat.eq_dec c b) as [->|Ec].
           ++ rewrite upd_same. rewrite Nat.eqb_refl in X. cbn [Nat.b2n] in X. lia.
           ++ rewrite upd_other by exact Ec. replace (b =? c) with false in X by (symmetry; apply Nat.eqb_neq; auto). cbn [Nat.b2n] in X. lia.
        -- intros u. cbn [In]. rewrite F. split; [tauto|]. intros [[X|X] Y]; [discriminate|tauto].
        -- exact D.
        -- intros z n u c. cbn [references]. destruct (Nat.eq_dec z o) as [->|Ez]; [rewrite upd_same; discriminate|]. rewrite upd_other by exact Ez. intros X.
           destruct (Nat.eqb_spec o c) as [->|Eoc]; [|apply (A z n u c X)].
           exfalso. pose proof (H z) as Hz. rewrite X in Hz. cbn in Hz. destruct Hz as [_ [_ [_ [_ [_ [_ [_ Y]]]]]]]. congruence.
    + (* another reference is left *)
      eexists. split; [reflexivity|]. constructor; cbn [heap shares freed pins names].
      * exact N.
      * intros z. destruct (Nat.eq_dec z o) as [->|Ez]; [|rewrite upd_other by exact Ez; apply OTH; exact Ez].
        rewrite upd_same. cbn [obj_ok refs what references]. rewrite Nat.eqb_refl. split; [lia|]. split; [lia|].
        split; [exact M'|]. destruct w as [s|s b]; [|exact K]. destruct K as [K1 [K2 K3]]. split; [exact K1|]. split; [exact K2|]. right. exact K3.
      * intros s. pose proof (cnt_in (block_on s) (heap st) o (Some (Obj (Datatypes.S n) w)) _ N M) as X. rewrite E in X.
        cbn [block_on] in X |- *. rewrite S. lia.
      * intros b L B. cbn [references is_block] in *. pose proof (cnt_in (array_on b) (heap st) o (Some (Obj (Datatypes.S n) w)) _ N M) as X. rewrite E in X.
        cbn [array_on] in X |- *. rewrite P; [lia| |exact B]. destruct (Nat.eqb_spec o b) as [->|Eb]; [exact W|exact L].
      * intros s. cbn [In]. rewrite F. split; [tauto|]. intros [[X|X] Y]; [discriminate|tauto].
      * exact D.
      * intros z k s b. cbn [references]. assert (RB : forall b, 0 < references p b -> 0 < (if o =? b then Init.Nat.pred (references p b) else references p b)).
        { intros b' L. destruct (Nat.eqb_spec o b') as [<-|Eb]; lia. }
        destruct (Nat.eq_dec z o) as [->|Ez].
        -- rewrite upd_same. intros X. injection X as _ ->. apply RB. apply (A o _ s b E).
        -- rewrite upd_other by exact Ez. intros X. apply RB. apply (A z k s b X).
  - (* Access *)
    cbn in W. destruct (LV o W) as [[m w] E]. rewrite E. pose proof (H o) as Ho. rewrite E in Ho. cbn in Ho. destruct Ho as [R [R0 [M K]]].
    assert (G : forall s, 0 < shares st s -> existsb (Nat.eqb s) (freed st) = false).
    { intros s L. apply Bool.not_true_is_false. intros X. apply existsb_exists in X. destruct X as [u [U1 U2]]. apply Nat.eqb_eq in U2. subst u. apply F in U1. lia. }
    assert (G2 : forall b n s, heap st b = Some (Obj n (IsBlock s)) -> 0 < shares st s).
    { intros b n s Eb. rewrite S. apply (cnt_pos _ _ b); [|rewrite Eb; cbn; apply Nat.eqb_refl].
      apply made_in. pose proof (H b) as Hb. rewrite Eb in Hb. cbn in Hb. apply Hb. }
    assert (inv st (Access o :: p)).
    { constructor; cbn [heap shares freed pins names]; auto.
      - intros z. specialize (H z). destruct (heap st z) as [y|]; cbn [obj_ok references] in *; [|exact H].
        destruct H as [H1 [H2 [H3 H4]]]. split; [exact H1|]. split; [exact H2|]. split; [exact H3|].
        destruct (what y); [|exact H4]. destruct H4 as [K1 [K2 K3]]. split; [exact K1|]. split; [exact K2|]. right. exact K3.
      - intros s. cbn [In]. rewrite F. split; [tauto|]. intros [[X|X] Y]; [discriminate|tauto]. }
    exists st. split; [|assumption]. destruct w as [s|s b].
    + rewrite G; [reflexivity|]. apply (G2 o _ _ E).
    + destruct K as [_ [_ [_ [K4 K5]]]]. pose proof (A o m s b E) as L. destruct (BLK b L K5) as [nb Eb].
      rewrite G; [reflexivity|]. rewrite K4. apply (G2 b _ _ Eb).
Qed.

Lemma run_app st p q : run st (p ++ q) = match run st p with Some st' => run st' q | None => None end.
Proof. revert st. induction p as [|c p IH]; intros st; cbn [app run]; [reflexivity|]. destruct (step st c); [apply IH|reflexivity]. Qed.

Lemma run_inv : forall p, well_formed p -> arrays_first p -> exists st, run start (rev p) = Some st /\ inv st p.
Proof.
  induction p as [|c p IH]; intros W Q; [exists start; split; [reflexivity|apply inv_start]|].
  pose proof W as [W1 _]. pose proof Q as [Q1 _]. destruct (IH W1 Q1) as [st [E I]].
  destruct (step_inv st p c I W Q) as [st' [X I']]. exists st'. split; [|exact I'].
  cbn [rev]. rewrite run_app, E. cbn [run]. rewrite X. reflexivity.
Qed.

Lemma lifetimes p : well_formed p -> arrays_first p ->
  exists st, run start (rev p) = Some st /\ NoDup (freed st) /\
  (forall s, In s (freed st) <-> In (NewBlock s) p /\ forall b, is_block p b = true -> origin p b = s -> references p b = 0).
Proof.
  intros W Q. destruct (run_inv p W Q) as [st [E [N H S P F D A]]]. exists st. split; [exact E|]. split; [exact D|].
  intros s. rewrite F. split; intros [X Y]; (split; [exact X|]).
  - intros b B O. pose proof (H b) as Hb. destruct (heap st b) as [[n w]|] eqn:Eb; [|exact Hb]. exfalso.
    cbn in Hb. destruct Hb as [_ [_ [M K]]]. destruct w as [t|t c]; [|destruct K; congruence]. destruct K as [_ [K _]]. subst t.
    rewrite S in Y. assert (0 < cnt (block_on s) (heap st) (names p)); [|lia]. apply (cnt_pos _ _ b); [apply made_in; exact M|].
    rewrite Eb. cbn. rewrite O. apply Nat.eqb_refl.
  - destruct (shares st s) eqn:Es; [reflexivity|]. exfalso. destruct (cnt_some (block_on s) (heap st) (names p)) as [b [I Hb]]; [rewrite <- S, Es; lia|].
    pose proof (H b) as K. destruct (heap st b) as [[n1 w]|]; [|discriminate]. destruct w as [t|]; [|discriminate]. cbn in Hb. apply Nat.eqb_eq in Hb. subst t.
    cbn in K. destruct K as [K1 [K2 [_ [K3 [K4 _]]]]]. specialize (Y b K3 (eq_sym K4)). lia.
Qed.

(** The last block of a storage goes while an array of it is left. *)
Lemma dangling p b a : well_formed p -> arrays_first p -> references p b = 1 -> is_block p b = true ->
  (forall c, is_block p c = true -> origin p c = origin p b -> c <> b -> references p c = 0) ->
  array_of p a b = true -> is_block p a = false -> 0 < references p a ->
  run start (rev (Access a :: Decref b :: p)) = None.
Proof.
  intros W Q R B L Ra Ba La. destruct (run_inv p W Q) as [st [E [N H S P F D A]]]. cbn [rev]. rewrite <- app_assoc, run_app, E. cbn [app run step].
  pose proof (H b) as Hb. destruct (heap st b) as [[n w]|] eqn:Eb; [|cbn in Hb; lia]. cbn in Hb. destruct Hb as [Rb [_ [Mb Kb]]]. destruct w as [s|s c]; [|destruct Kb; congruence].
  destruct Kb as [_ [-> Nb]]. assert (n = 1) as -> by lia. unfold release. cbn [run step heap freed shares pins].
  assert (Eab : a <> b) by (intros ->; congruence). rewrite upd_other by exact Eab.
  pose proof (H a) as Ha. destruct (heap st a) as [[n w]|] eqn:Ea; [|cbn in Ha; lia]. cbn in Ha. destruct Ha as [_ [_ [_ Ka]]].
  destruct w as [s|s c]; [destruct Ka; congruence|]. destruct Ka as [_ [K2 [_ [K4 _]]]].
  assert (c = b).
  { clear - Ra K2. induction p as [|x p IH]; [discriminate|]. destruct x as [o|o y|o y|o|o|o]; cbn [array_of] in *; auto.
    destruct (o =? a); [|auto]. apply Nat.eqb_eq in Ra, K2. congruence. }
  subst c. assert (Sh : shares st (origin p b) = 1).
  { rewrite S. pose proof (cnt_in (block_on (origin p b)) (heap st) b None _ N (proj1 (made_in p b) Mb)) as X. rewrite Eb in X. cbn [block_on Nat.b2n] in X. rewrite Nat.eqb_refl in X. cbn [Nat.b2n] in X.
    destruct (cnt (block_on (origin p b)) (upd (heap st) b None) (names p)) eqn:Ec; [lia|]. exfalso.
    destruct (cnt_some (block_on (origin p b)) (upd (heap st) b None) (names p)) as [z [Iz Hz]]; [lia|].
    destruct (Nat.eq_dec z b) as [->|Ez]; [rewrite upd_same in Hz; discriminate|]. rewrite upd_other in Hz by exact Ez.
    pose proof (H z) as K. destruct (heap st z) as [[n1 w]|]; [|discriminate]. destruct w as [t|]; [|discriminate]. cbn in Hz. apply Nat.eqb_eq in Hz. subst t.
    cbn in K. destruct K as [K1 [K2' [_ [K3 [K4' _]]]]]. specialize (L z K3 (eq_sym K4') Ez). lia. }
  rewrite Sh. cbn [Nat.sub Nat.eqb]. rewrite K4. replace (existsb (Nat.eqb (origin p b)) (freed st ++ [origin p b])) with true; [reflexivity|].
  symmetry. apply existsb_exists. exists (origin p b). split; [apply in_app_iff; right; left; reflexivity|apply Nat.eqb_refl].
Qed.

(** The block of an array goes before the array. *)
Lemma backref_dangling p b a : well_formed p -> arrays_first p -> references p b = 1 -> is_block p b = true ->
  array_of p a b = true -> is_block p a = false -> references p a = 1 ->
  run start (rev (Decref a :: Decref b :: p)) = None.
Proof.
  intros W Q R B Ra Ba La. destruct (run_inv p W Q) as [st [E [N H S P F D A]]]. cbn [rev]. rewrite <- app_assoc, run_app, E. cbn [app run step].
  pose proof (H b) as Hb. destruct (heap st b) as [[n w]|] eqn:Eb; [|cbn in Hb; lia]. cbn in Hb. destruct Hb as [Rb [_ [Mb Kb]]]. destruct w as [s|s c]; [|destruct Kb; congruence].
  assert (n = 1) as -> by lia. unfold release. cbn [run step heap freed shares pins].
  assert (Eab : a <> b) by (intros ->; congruence). rewrite upd_other by exact Eab.
  pose proof (H a) as Ha. destruct (heap st a) as [[n w]|] eqn:Ea; [|cbn in Ha; lia]. cbn in Ha. destruct Ha as [Na [_ [_ Ka]]].
  destruct w as [t|t c]; [destruct Ka; congruence|]. destruct Ka as [_ [K2 _]]. assert (n = 1) as -> by lia.
  assert (c = b).
  { clear - Ra K2. induction p as [|x p IH]; [discriminate|]. destruct x as [o|o y|o y|o|o|o]; cbn [array_of] in *; auto.
    destruct (o =? a); [|auto]. apply Nat.eqb_eq in Ra, K2. congruence. }
  subst c. rewrite upd_same. reflexivity.
Qed.
