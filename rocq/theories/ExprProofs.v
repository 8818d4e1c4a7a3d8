(** Proofs about expression evaluation. *)
From Coq Require Import ZArith List Lia Bool Arith.
From Verif Require Import Base LoopLemmas Expr.
Import ListNotations.
Local Open Scope nat_scope.

Section P.
Context {R : CRing} (dv : R -> R -> R).
Local Notation get := (get dv).
Local Notation val := (val dv).
Local Notation ready := (ready dv).
Local Notation put_get := (put_get dv).
Local Notation expr := (expr R).

(** ** Reading returns the value *)
Lemma get_val m : forall e, ready m e -> forall i, option_map fst (get m e i) = val m e i.
Proof.
  induction e as [b|v|sz g|o a IHa|o a IHa b IHb|o a IHa b IHb c IHc|byrow v IHv a IHa|sz ix a IHa
                 |sz f a IHa c|sz f a IHa b IHb c|sz f a IHa b IHb d IHd c]; simpl; intros Hr i.
  - destruct (bload m b i); reflexivity.
  - reflexivity.
  - reflexivity.
  - rewrite <- IHa by assumption. destruct (get m a i) as [[? ?]|]; reflexivity.
  - destruct Hr as (Ha & Hb). rewrite <- IHa, <- IHb by assumption.
    destruct (get m a i) as [[? ?]|]; [|reflexivity]. destruct (get m b i) as [[? ?]|]; reflexivity.
  - destruct Hr as (Ha & Hb & Hc). rewrite <- IHa, <- IHb, <- IHc by assumption.
    destruct (get m a i) as [[? ?]|]; [|reflexivity]. destruct (get m b i) as [[? ?]|]; [|reflexivity].
    destruct (get m c i) as [[? ?]|]; reflexivity.
  - destruct Hr as (Hv & Ha). destruct i as [|r [|c [|? ?]]]; try reflexivity.
    rewrite <- IHa, <- IHv by assumption.
    destruct (get m v _) as [[? ?]|]; [|reflexivity]. destruct (get m a _) as [[? ?]|]; reflexivity.
  - destruct (inb i sz); [|reflexivity]. rewrite <- IHa by assumption.
    destruct (get m a (ix i)) as [[? ?]|]; reflexivity.
  - destruct Hr as (Ha & (Hn & Hc) & Hx).
    assert (E : f (fun j => option_map fst (get m a j)) = f (val m a)) by (apply Hx; intros; apply IHa; assumption).
    destruct Hc as [-> | ->].
    + rewrite E. destruct (f (val m a)); simpl; [|reflexivity]. destruct (inb i sz); reflexivity.
    + destruct (f (val m a)); [|contradiction]. simpl. destruct (inb i sz); reflexivity.
  - destruct Hr as (Ha & Hb & (Hn & Hc) & Hx).
    assert (E : f (fun j => option_map fst (get m a j)) (fun j => option_map fst (get m b j)) = f (val m a) (val m b))
      by (apply Hx; intros; [apply IHa|apply IHb]; assumption).
    destruct Hc as [-> | ->].
    + rewrite E. destruct (f (val m a) (val m b)); simpl; [|reflexivity]. destruct (inb i sz); reflexivity.
    + destruct (f (val m a) (val m b)); [|contradiction]. simpl. destruct (inb i sz); reflexivity.
  - destruct Hr as (Ha & Hb & Hd & (Hn & Hc) & Hx).
    assert (E : f (fun j => option_map fst (get m a j)) (fun j => option_map fst (get m b j)) (fun j => option_map fst (get m d j))
                = f (val m a) (val m b) (val m d))
      by (apply Hx; intros; [apply IHa|apply IHb|apply IHd]; assumption).
    destruct Hc as [-> | ->].
    + rewrite E. destruct (f (val m a) (val m b) (val m d)); simpl; [|reflexivity]. destruct (inb i sz); reflexivity.
    + destruct (f (val m a) (val m b) (val m d)); [|contradiction]. simpl. destruct (inb i sz); reflexivity.
Qed.

(** All caches outside other non-elementwise nodes hold the value in [m]. *)
Fixpoint full (m : mem R) (e : expr) : Prop :=
  match e with
  | Leaf _ | Scal _ | Gen _ _ => True
  | Un _ a => full m a
  | Bin _ a b => full m a /\ full m b
  | Ter _ a b c => full m a /\ full m b /\ full m c
  | Vmm _ v a => full m v /\ full m a
  | Sub_ _ _ a => full m a
  | Ne1 _ f a c => c = f (val m a) /\ c <> None
  | Ne2 _ f a b c => c = f (val m a) (val m b) /\ c <> None
  | Ne3 _ f a b d c => c = f (val m a) (val m b) (val m d) /\ c <> None
  end.

Definition sim (m : mem R) (e e' : expr) : Prop :=
  (forall i, val m e' i = val m e i) /\ (forall i a, reads e' i a <-> reads e i a).
Lemma sim_refl m e : sim m e e.
Proof. split; intros; [reflexivity|tauto]. Qed.
Lemma sim_trans m a b c : sim m a b -> sim m b c -> sim m a c.
Proof. intros (A & B) (C & D). split; intros; [rewrite C; apply A|rewrite D; apply B]. Qed.
Lemma sim_un m o a a' : sim m a a' -> sim m (Un o a) (Un o a').
Proof. intros (A & B). split; intros; simpl; [rewrite A; reflexivity|apply B]. Qed.
Lemma sim_bin m o a a' b b' : sim m a a' -> sim m b b' -> sim m (Bin o a b) (Bin o a' b').
Proof. intros (A & B) (C & D). split; intros; simpl; [rewrite A, C; reflexivity|rewrite B, D; tauto]. Qed.
Lemma sim_ter m o a a' b b' c c' : sim m a a' -> sim m b b' -> sim m c c' -> sim m (Ter o a b c) (Ter o a' b' c').
Proof. intros (A & B) (C & D) (E & F). split; intros; simpl; [rewrite A, C, E; reflexivity|rewrite B, D, F; tauto]. Qed.
Lemma sim_vmm m o a a' b b' : sim m a a' -> sim m b b' -> sim m (Vmm o a b) (Vmm o a' b').
Proof.
  intros (A & B) (C & D). split; intros; simpl.
  - destruct i as [|r [|c [|? ?]]]; try reflexivity. rewrite A, C. reflexivity.
  - destruct i as [|r [|c [|? ?]]]; try tauto. rewrite B, D. tauto.
Qed.
Lemma sim_sub m sz ix a a' : sim m a a' -> sim m (Sub_ sz ix a) (Sub_ sz ix a').
Proof. intros (A & B). split; intros; simpl; [rewrite A; reflexivity|apply B]. Qed.

Lemma get_full m : forall e i v e', ready m e -> get m e i = Some (v, e') -> full m e' /\ sim m e e'.
Proof.
  induction e as [b|w|sz g|o a IHa|o a IHa b IHb|o a IHa b IHb c IHc|byrow w IHv a IHa|sz ix a IHa
                 |sz f a IHa c|sz f a IHa b IHb c|sz f a IHa b IHb d IHd c]; simpl; intros i v e' Hr G.
  - destruct (bload m b i); [|discriminate]. inversion G; subst. split; [exact I|apply sim_refl].
  - inversion G; subst. split; [exact I|apply sim_refl].
  - inversion G; subst. split; [exact I|apply sim_refl].
  - destruct (get m a i) as [[x a']|] eqn:Ea; [|discriminate]. inversion G; subst. simpl.
    destruct (IHa _ _ _ Hr Ea). split; [assumption|apply sim_un; assumption].
  - destruct Hr as (Ha & Hb). destruct (get m a i) as [[x a']|] eqn:Ea; [|discriminate].
    destruct (get m b i) as [[y b']|] eqn:Eb; [|discriminate]. inversion G; subst. simpl.
    destruct (IHa _ _ _ Ha Ea). destruct (IHb _ _ _ Hb Eb). split; [tauto|apply sim_bin; assumption].
  - destruct Hr as (Ha & Hb & Hc). destruct (get m a i) as [[x a']|] eqn:Ea; [|discriminate].
    destruct (get m b i) as [[y b']|] eqn:Eb; [|discriminate].
    destruct (get m c i) as [[z c']|] eqn:Ec; [|discriminate]. inversion G; subst. simpl.
    destruct (IHa _ _ _ Ha Ea). destruct (IHb _ _ _ Hb Eb). destruct (IHc _ _ _ Hc Ec).
    split; [tauto|apply sim_ter; assumption].
  - destruct Hr as (Hv & Ha). destruct i as [|r [|c [|? ?]]]; try discriminate.
    destruct (get m w _) as [[x w']|] eqn:Ew; [|discriminate].
    destruct (get m a _) as [[y a']|] eqn:Ea; [|discriminate]. inversion G; subst. simpl.
    destruct (IHv _ _ _ Hv Ew). destruct (IHa _ _ _ Ha Ea). split; [tauto|apply sim_vmm; assumption].
  - destruct (inb i sz); [|discriminate]. destruct (get m a (ix i)) as [[x a']|] eqn:Ea; [|discriminate].
    inversion G; subst. simpl. destruct (IHa _ _ _ Hr Ea). split; [assumption|apply sim_sub; assumption].
  - destruct Hr as (Ha & (Hn & Hc) & Hx).
    assert (E : (match c with Some g => Some g | None => f (fun j => option_map fst (get m a j)) end) = f (val m a)).
    { destruct Hc as [-> | ->]; [apply Hx; intros; apply get_val; assumption|destruct (f (val m a)); [reflexivity|contradiction]]. }
    rewrite E in G. destruct (f (val m a)) as [g|] eqn:F; [|contradiction]. simpl in G.
    destruct (inb i sz); [|discriminate]. inversion G; subst.
    split; [simpl; split; [symmetry; exact F|discriminate]|]. split; intros; simpl; [reflexivity|tauto].
  - destruct Hr as (Ha & Hb & (Hn & Hc) & Hx).
    assert (E : (match c with Some g => Some g | None => f (fun j => option_map fst (get m a j)) (fun j => option_map fst (get m b j)) end) = f (val m a) (val m b)).
    { destruct Hc as [-> | ->]; [apply Hx; intros; apply get_val; assumption|destruct (f (val m a) (val m b)); [reflexivity|contradiction]]. }
    rewrite E in G. destruct (f (val m a) (val m b)) as [g|] eqn:F; [|contradiction]. simpl in G.
    destruct (inb i sz); [|discriminate]. inversion G; subst.
    split; [simpl; split; [symmetry; exact F|discriminate]|]. split; intros; simpl; [reflexivity|tauto].
  - destruct Hr as (Ha & Hb & Hd & (Hn & Hc) & Hx).
    assert (E : (match c with Some g => Some g | None => f (fun j => option_map fst (get m a j)) (fun j => option_map fst (get m b j)) (fun j => option_map fst (get m d j)) end) = f (val m a) (val m b) (val m d)).
    { destruct Hc as [-> | ->]; [apply Hx; intros; apply get_val; assumption|destruct (f (val m a) (val m b) (val m d)); [reflexivity|contradiction]]. }
    rewrite E in G. destruct (f (val m a) (val m b) (val m d)) as [g|] eqn:F; [|contradiction]. simpl in G.
    destruct (inb i sz); [|discriminate]. inversion G; subst.
    split; [simpl; split; [symmetry; exact F|discriminate]|]. split; intros; simpl; [reflexivity|tauto].
Qed.

(** With the caches filled, a read depends on the memory only through the
    cells it reads, and leaves the expression alone. *)
Lemma full_get m0 m : forall e i, full m0 e -> (forall a, reads e i a -> m a = m0 a) ->
  get m e i = option_map (fun v => (v, e)) (val m0 e i).
Proof.
  induction e as [b|w|sz g|o a IHa|o a IHa b IHb|o a IHa b IHb c IHc|byrow w IHv a IHa|sz ix a IHa
                 |sz f a IHa c|sz f a IHa b IHb c|sz f a IHa b IHb d IHd c]; simpl; intros i Hf Hm.
  - unfold bload, mload. rewrite Hm by reflexivity. destruct (inb i (bsz b)); [|reflexivity].
    destruct (m0 (baddr b i)); reflexivity.
  - reflexivity.
  - reflexivity.
  - rewrite IHa by assumption. destruct (val m0 a i); reflexivity.
  - destruct Hf. rewrite IHa, IHb by auto. destruct (val m0 a i); [|reflexivity]. destruct (val m0 b i); reflexivity.
  - destruct Hf as (? & ? & ?). rewrite IHa, IHb, IHc by auto.
    destruct (val m0 a i); [|reflexivity]. destruct (val m0 b i); [|reflexivity]. destruct (val m0 c i); reflexivity.
  - destruct Hf. destruct i as [|r [|c [|? ?]]]; try reflexivity. rewrite IHv, IHa by auto.
    destruct (val m0 w _); [|reflexivity]. destruct (val m0 a _); reflexivity.
  - destruct (inb i sz); [|reflexivity]. rewrite IHa by assumption. destruct (val m0 a (ix i)); reflexivity.
  - destruct Hf as (E & N). destruct c as [g|]; [|contradiction]. rewrite <- E. simpl. destruct (inb i sz); reflexivity.
  - destruct Hf as (E & N). destruct c as [g|]; [|contradiction]. rewrite <- E. simpl. destruct (inb i sz); reflexivity.
  - destruct Hf as (E & N). destruct c as [g|]; [|contradiction]. rewrite <- E. simpl. destruct (inb i sz); reflexivity.
Qed.

(** ** evaluate *)
Lemma eval_node_ok m e : ready m e -> exists e', eval_node dv m e = Some e' /\ ready m e' /\ sim m e e'.
Proof.
  destruct e as [b|w|sz g|o a|o a b|o a b c|byrow w a|sz ix a|sz f a c|sz f a b c|sz f a b d c]; intros Hr;
    try (eexists; split; [reflexivity|split; [exact Hr|apply sim_refl]]; fail).
  - destruct c as [g|]; [eexists; split; [reflexivity|split; [exact Hr|apply sim_refl]]|].
    simpl in Hr. destruct Hr as (Ha & (Hn & _) & Hx). unfold eval_node.
    rewrite (Hx _ (val m a)) by (intros; apply get_val; assumption).
    destruct (f (val m a)) as [g|] eqn:F; [|contradiction].
    eexists; split; [reflexivity|]. split.
    + simpl. rewrite F. split; [exact Ha|]. split; [split; [discriminate|right; reflexivity]|exact Hx].
    + split; intros; simpl; [reflexivity|tauto].
  - destruct c as [g|]; [eexists; split; [reflexivity|split; [exact Hr|apply sim_refl]]|].
    simpl in Hr. destruct Hr as (Ha & Hb & (Hn & _) & Hx). unfold eval_node.
    rewrite (Hx _ (val m a) _ (val m b)) by (intros; apply get_val; assumption).
    destruct (f (val m a) (val m b)) as [g|] eqn:F; [|contradiction].
    eexists; split; [reflexivity|]. split.
    + simpl. rewrite F. split; [exact Ha|]. split; [exact Hb|]. split; [split; [discriminate|right; reflexivity]|exact Hx].
    + split; intros; simpl; [reflexivity|tauto].
  - destruct c as [g|]; [eexists; split; [reflexivity|split; [exact Hr|apply sim_refl]]|].
    simpl in Hr. destruct Hr as (Ha & Hb & Hd & (Hn & _) & Hx). unfold eval_node.
    rewrite (Hx _ (val m a) _ (val m b) _ (val m d)) by (intros; apply get_val; assumption).
    destruct (f (val m a) (val m b) (val m d)) as [g|] eqn:F; [|contradiction].
    eexists; split; [reflexivity|]. split.
    + simpl. rewrite F. repeat (split; [assumption|]). split; [split; [discriminate|right; reflexivity]|exact Hx].
    + split; intros; simpl; [reflexivity|tauto].
Qed.

Lemma evaluate_ok m e : ready m e -> exists e', evaluate dv m e = Some e' /\ ready m e' /\ sim m e e'.
Proof.
  destruct e as [b|w|sz g|o a|o a b|o a b c|byrow w a|sz ix a|sz f a c|sz f a b c|sz f a b d c]; intros Hr;
    try (eexists; split; [reflexivity|split; [exact Hr|apply sim_refl]]; fail); simpl in Hr; unfold evaluate.
  - destruct (eval_node_ok _ _ Hr) as (a' & E & K & S). rewrite E. cbv [bind].
    eexists; split; [reflexivity|]. split; [exact K|apply sim_un; exact S].
  - destruct Hr as (Ha & Hb). destruct (eval_node_ok _ _ Ha) as (a' & E & K & S).
    destruct (eval_node_ok _ _ Hb) as (b' & E' & K' & S'). rewrite E; cbv [bind]; rewrite E'.
    eexists; split; [reflexivity|]. split; [split; assumption|apply sim_bin; assumption].
  - destruct Hr as (Ha & Hb & Hc). destruct (eval_node_ok _ _ Ha) as (a' & E & K & S).
    destruct (eval_node_ok _ _ Hb) as (b' & E' & K' & S'). destruct (eval_node_ok _ _ Hc) as (c' & E2 & K2 & S2).
    rewrite E; cbv [bind]; rewrite E', E2.
    eexists; split; [reflexivity|]. split; [repeat split; assumption|apply sim_ter; assumption].
  - destruct Hr as (Ha & Hb). destruct (eval_node_ok _ _ Ha) as (a' & E & K & S).
    destruct (eval_node_ok _ _ Hb) as (b' & E' & K' & S'). rewrite E; cbv [bind]; rewrite E'.
    eexists; split; [reflexivity|]. split; [split; assumption|apply sim_vmm; assumption].
  - destruct (eval_node_ok _ _ Hr) as (a' & E & K & S). rewrite E. cbv [bind].
    eexists; split; [reflexivity|]. split; [exact K|apply sim_sub; exact S].
  - destruct Hr as (Ha & (Hn & Hc) & Hx). destruct (eval_node_ok _ _ Ha) as (a' & E & K & (S & _)).
    rewrite E. cbv [bind].
    assert (F : f (val m a') = f (val m a)) by (apply Hx; exact S).
    destruct (eval_node_ok m (Ne1 sz f a' c)) as (e' & E' & K' & S').
    { simpl. rewrite F. split; [exact K|]. split; [split; assumption|exact Hx]. }
    exists e'. split; [exact E'|]. split; [exact K'|]. eapply sim_trans; [|exact S'].
    split; intros; simpl; [rewrite F; reflexivity|tauto].
  - destruct Hr as (Ha & Hb & (Hn & Hc) & Hx). destruct (eval_node_ok _ _ Ha) as (a' & E & K & (S & _)).
    destruct (eval_node_ok _ _ Hb) as (b' & E2 & K2 & (S2 & _)).
    rewrite E. cbv [bind]. rewrite E2.
    assert (F : f (val m a') (val m b') = f (val m a) (val m b)) by (apply Hx; assumption).
    destruct (eval_node_ok m (Ne2 sz f a' b' c)) as (e' & E' & K' & S').
    { simpl. rewrite F. repeat (split; [assumption|]). split; [split; assumption|exact Hx]. }
    exists e'. split; [exact E'|]. split; [exact K'|]. eapply sim_trans; [|exact S'].
    split; intros; simpl; [rewrite F; reflexivity|tauto].
  - destruct Hr as (Ha & Hb & Hd & (Hn & Hc) & Hx). destruct (eval_node_ok _ _ Ha) as (a' & E & K & (S & _)).
    destruct (eval_node_ok _ _ Hb) as (b' & E2 & K2 & (S2 & _)). destruct (eval_node_ok _ _ Hd) as (d' & E3 & K3 & (S3 & _)).
    rewrite E. cbv [bind]. rewrite E2, E3.
    assert (F : f (val m a') (val m b') (val m d') = f (val m a) (val m b) (val m d)) by (apply Hx; assumption).
    destruct (eval_node_ok m (Ne3 sz f a' b' d' c)) as (e' & E' & K' & S').
    { simpl. rewrite F. repeat (split; [assumption|]). split; [split; assumption|exact Hx]. }
    exists e'. split; [exact E'|]. split; [exact K'|]. eapply sim_trans; [|exact S'].
    split; intros; simpl; [rewrite F; reflexivity|tauto].
Qed.

(** ** The loops *)
Lemma fold_ok cv lhs (e0 e : expr) m (L : list (list nat)) :
  NoDup L -> (forall i, In i L <-> inb i (bsz lhs) = true) ->
  ready m e -> sim m e0 e -> own m lhs -> no_cross lhs e0 ->
  (forall i, inb i (bsz lhs) = true -> val m e0 i <> None) ->
  exists s, foldM (put_get cv lhs) L (e, m) = Some s /\ assigned dv cv lhs e0 m (snd s).
Proof.
  intros ND HL Hr (Sv & Sr) (Om & Oi) NC HV.
  destruct (foldM_inv (put_get cv lhs) (fun done s =>
      (done = [] /\ s = (e, m) \/ done <> [] /\ full m (fst s) /\ sim m e0 (fst s)) /\
      (forall i, In i done -> exists v, val m e0 i = Some v /\ snd s (baddr lhs i) = Some (cv v)) /\
      (forall a, (forall i, In i done -> a <> baddr lhs i) -> snd s a = m a)) L [] (e, m)) as (s & E & (_ & P1 & P2)).
  - split; [left; split; reflexivity|]. split; [intros i []|reflexivity].
  - simpl. intros pre x post [e1 m1] EL (A & B & C). simpl in B, C.
    assert (NDx : ~ In x pre).
    { intros K. rewrite EL in ND. apply NoDup_remove_2 in ND. apply ND. apply in_or_app. left; exact K. }
    assert (Hx : inb x (bsz lhs) = true) by (apply HL; rewrite EL; apply in_or_app; right; left; reflexivity).
    assert (Hpre : forall j, In j pre -> inb j (bsz lhs) = true).
    { intros j K. apply HL. rewrite EL. apply in_or_app. left; exact K. }
    destruct (val m e0 x) as [v|] eqn:Ev; [|exfalso; exact (HV _ Hx Ev)].
    assert (G : exists e2, get m1 e1 x = Some (v, e2) /\ full m e2 /\ sim m e0 e2).
    { destruct A as [(-> & A) | (_ & F & (S1 & S2))].
      - inversion A; subst e1 m1. pose proof (get_val m e Hr x) as GV. rewrite Sv, Ev in GV.
        destruct (get m e x) as [[w e2]|] eqn:G; [|discriminate]. simpl in GV. inversion GV; subst w.
        destruct (get_full _ _ _ _ _ Hr G) as (F & S). exists e2. split; [reflexivity|]. split; [exact F|].
        eapply sim_trans; [split; [exact Sv|exact Sr]|exact S].
      - simpl in F, S1, S2. exists e1. split; [|split; [exact F|split; [exact S1|exact S2]]].
        rewrite (full_get m m1) by (try exact F; intros a Ha; apply C; intros j Hj; intros ->;
          apply S2 in Ha; revert Ha; apply NC; auto; intros ->; contradiction).
        rewrite S1, Ev. reflexivity. }
    destruct G as (e2 & G & F2 & S2). unfold Expr.put_get. simpl. rewrite G. cbn [bind].
    unfold bstore. rewrite Hx. cbn [fst snd]. unfold mstore, mload.
    assert (M1 : m1 (baddr lhs x) <> None).
    { rewrite C; [apply Om; exact Hx|]. intros j Hj Eq. apply NDx. rewrite (Oi x j); auto. }
    destruct (m1 (baddr lhs x)) eqn:M; [|contradiction]. cbn [bind].
    eexists; split; [reflexivity|]. cbn [fst snd]. split; [right; split; [destruct pre; discriminate|split; assumption]|]. split.
    + intros i Hi. apply in_app_or in Hi. destruct Hi as [Hi|[<-|[]]].
      * destruct (B i Hi) as (w & W1 & W2). exists w. split; [exact W1|]. unfold mupd.
        destruct (Z.eqb_spec (baddr lhs i) (baddr lhs x)) as [Eq|_]; [|exact W2].
        exfalso. apply NDx. rewrite <- (Oi i x); auto.
      * exists v. split; [exact Ev|]. unfold mupd. rewrite Z.eqb_refl. reflexivity.
    + intros a Ha. unfold mupd. destruct (Z.eqb_spec a (baddr lhs x)) as [->|_].
      * exfalso. apply (Ha x); [apply in_or_app; right; left; reflexivity|reflexivity].
      * apply C. intros i Hi. apply Ha. apply in_or_app; left; exact Hi.
  - exists s. split; [exact E|]. split.
    + intros i Hi. apply P1. simpl. apply HL. exact Hi.
    + intros a Ha. apply P2. intros i Hi. apply Ha. apply HL. exact Hi.
Qed.

(** Enumerations of the indices. *)
Definition enum1 (n : nat) : list (list nat) := map (fun i => [i]) (seq 0 n).
Definition enum2 (f : nat -> nat -> list nat) (n k : nat) : list (list nat) := flat_map (fun i => map (f i) (seq 0 k)) (seq 0 n).
Definition enum3 (f : nat -> nat -> nat -> list nat) (n k l : nat) : list (list nat) :=
  flat_map (fun i => flat_map (fun j => map (f i j) (seq 0 l)) (seq 0 k)) (seq 0 n).

Lemma NoDup_enum1 n : NoDup (enum1 n).
Proof. apply NoDup_map_in; [apply seq_NoDup|]. intros x y _ _ E; inversion E; reflexivity. Qed.
Lemma NoDup_enum2 f n k : (forall a b c d, f a b = f c d -> a = c /\ b = d) -> NoDup (enum2 f n k).
Proof.
  intros Hf. apply NoDup_flat_map; [apply seq_NoDup| |].
  - intros x _. apply NoDup_map_in; [apply seq_NoDup|]. intros a b _ _ E. apply Hf in E. tauto.
  - intros x y z _ _ H1 H2. apply in_map_iff in H1, H2. destruct H1 as (? & <- & _). destruct H2 as (? & E & _).
    apply Hf in E. destruct E; congruence.
Qed.
Lemma NoDup_enum3 f n k l : (forall a b c a' b' c', f a b c = f a' b' c' -> a = a' /\ b = b' /\ c = c') -> NoDup (enum3 f n k l).
Proof.
  intros Hf. apply NoDup_flat_map; [apply seq_NoDup| |].
  - intros x _. apply (NoDup_enum2 (f x)). intros a b c d E. apply Hf in E. tauto.
  - intros x y z _ _ H1 H2. apply in_flat_map in H1, H2. destruct H1 as (? & _ & H1). destruct H2 as (? & _ & H2).
    apply in_map_iff in H1, H2. destruct H1 as (? & <- & _). destruct H2 as (? & E & _).
    apply Hf in E. destruct E; congruence.
Qed.

Lemma inb1 i sz : length sz = 1 -> (inb i sz = true <-> exists x, i = [x] /\ x < nth 0 sz 0).
Proof.
  destruct sz as [|n [|? ?]]; try discriminate. intros _. destruct i as [|x [|? ?]]; simpl.
  - split; [discriminate|intros (? & ? & _); discriminate].
  - rewrite andb_true_r, Nat.ltb_lt. split; [intros; exists x; auto|intros (? & E & ?); inversion E; subst; assumption].
  - split; [rewrite andb_false_r; discriminate|intros (? & ? & _); discriminate].
Qed.
Lemma inb2 i sz : length sz = 2 -> (inb i sz = true <-> exists x y, i = [x; y] /\ x < nth 0 sz 0 /\ y < nth 1 sz 0).
Proof.
  destruct sz as [|n [|k [|? ?]]]; try discriminate. intros _. destruct i as [|x [|y [|? ?]]]; simpl;
    try (split; [rewrite ?andb_false_r; discriminate|intros (? & ? & ? & _); discriminate]).
  rewrite andb_true_r, andb_true_iff, !Nat.ltb_lt.
  split; [intros (? & ?); exists x, y; auto|intros (? & ? & E & ? & ?); inversion E; subst; auto].
Qed.
Lemma inb3 i sz : length sz = 3 ->
  (inb i sz = true <-> exists x y z, i = [x; y; z] /\ x < nth 0 sz 0 /\ y < nth 1 sz 0 /\ z < nth 2 sz 0).
Proof.
  destruct sz as [|n [|k [|l [|? ?]]]]; try discriminate. intros _. destruct i as [|x [|y [|z [|? ?]]]]; simpl;
    try (split; [rewrite ?andb_false_r; discriminate|intros (? & ? & ? & ? & _); discriminate]).
  rewrite andb_true_r, !andb_true_iff, !Nat.ltb_lt.
  split; [intros (? & ? & ?); exists x, y, z; auto|intros (? & ? & ? & E & ? & ? & ?); inversion E; subst; auto].
Qed.

Lemma in_enum1 i n : In i (enum1 n) <-> exists x, i = [x] /\ x < n.
Proof.
  unfold enum1. rewrite in_map_iff. split.
  - intros (x & <- & H). apply in_seq in H. exists x. split; [reflexivity|lia].
  - intros (x & -> & H). exists x. split; [reflexivity|apply in_seq; lia].
Qed.
Lemma in_enum2 f i n k : In i (enum2 f n k) <-> exists x y, i = f x y /\ x < n /\ y < k.
Proof.
  unfold enum2. rewrite in_flat_map. split.
  - intros (x & Hx & H). apply in_map_iff in H. destruct H as (y & <- & Hy).
    apply in_seq in Hx. apply in_seq in Hy. exists x, y. split; [reflexivity|lia].
  - intros (x & y & -> & Hx & Hy). exists x. split; [apply in_seq; lia|]. apply in_map_iff. exists y. split; [reflexivity|apply in_seq; lia].
Qed.
Lemma in_enum3 f i n k l : In i (enum3 f n k l) <-> exists x y z, i = f x y z /\ x < n /\ y < k /\ z < l.
Proof.
  unfold enum3. rewrite in_flat_map. split.
  - intros (x & Hx & H). apply in_flat_map in H. destruct H as (y & Hy & H). apply in_map_iff in H. destruct H as (z & <- & Hz).
    apply in_seq in Hx. apply in_seq in Hy. apply in_seq in Hz. exists x, y, z. split; [reflexivity|lia].
  - intros (x & y & z & -> & Hx & Hy & Hz). exists x. split; [apply in_seq; lia|]. apply in_flat_map. exists y. split; [apply in_seq; lia|].
    apply in_map_iff. exists z. split; [reflexivity|apply in_seq; lia].
Qed.

Lemma loop_enum1 {S} (f : list nat -> S -> option S) n s : loop (fun i s => f [i] s) 0 n s = foldM f (enum1 n) s.
Proof. rewrite loop_foldM. unfold enum1. rewrite <- foldM_map. reflexivity. Qed.
Lemma loop_enum2 {S} (f : list nat -> S -> option S) g n k s :
  loop (fun i s => loop (fun j s => f (g i j) s) 0 k s) 0 n s = foldM f (enum2 g n k) s.
Proof.
  rewrite loop_foldM. unfold enum2. rewrite <- foldM_flat_map. apply foldM_ext. intros x t _.
  rewrite loop_foldM, <- foldM_map. reflexivity.
Qed.
Lemma loop_enum3 {S} (f : list nat -> S -> option S) g n k l s :
  loop (fun i s => loop (fun j s => loop (fun k s => f (g i j k) s) 0 l s) 0 k s) 0 n s = foldM f (enum3 g n k l) s.
Proof.
  rewrite loop_foldM. unfold enum3. rewrite <- foldM_flat_map. apply foldM_ext. intros x t _.
  rewrite loop_foldM, <- foldM_flat_map. apply foldM_ext. intros y u _. rewrite loop_foldM, <- foldM_map. reflexivity.
Qed.

Definition good (m : mem R) (lhs : blk) (e : expr) : Prop :=
  ready m e /\ own m lhs /\ no_cross lhs e /\ (forall i, inb i (bsz lhs) = true -> val m e i <> None).

Lemma fuse1_ok cv lhs e m : length (bsz lhs) = 1 -> good m lhs e ->
  exists m', fuse1 dv cv lhs e m = Some m' /\ assigned dv cv lhs e m m'.
Proof.
  intros HL (Hr & Ho & Hn & Hv). unfold fuse1. destruct (evaluate_ok _ _ Hr) as (e' & E & Hr' & S). rewrite E. cbn [bind].
  rewrite (loop_enum1 (put_get cv lhs)).
  destruct (fold_ok cv lhs e e' m (enum1 (ext lhs 0))) as (s & Es & A); auto.
  - apply NoDup_enum1.
  - intros i. rewrite in_enum1, inb1 by exact HL. reflexivity.
  - rewrite Es. exists (snd s). split; [reflexivity|exact A].
Qed.

Ltac inj3 := let H := fresh in intros * H; inversion H; subst; auto.
Lemma fuse2_ok o cv lhs e m : length (bsz lhs) = 2 -> good m lhs e ->
  exists m', fuse2 dv o cv lhs e m = Some m' /\ assigned dv cv lhs e m m'.
Proof.
  intros HL (Hr & Ho & Hn & Hv). unfold fuse2. destruct (evaluate_ok _ _ Hr) as (e' & E & Hr' & S). rewrite E. cbn [bind]. cbv zeta.
  destruct o.
  - rewrite (loop_enum2 (put_get cv lhs) (fun i j => [i; j])).
    destruct (fold_ok cv lhs e e' m (enum2 (fun i j => [i; j]) (ext lhs 0) (ext lhs 1))) as (s & Es & A); auto.
    + apply NoDup_enum2. inj3.
    + intros i. rewrite in_enum2, inb2 by exact HL. reflexivity.
    + rewrite Es. exists (snd s). split; [reflexivity|exact A].
  - rewrite (loop_enum2 (put_get cv lhs) (fun j i => [i; j])).
    destruct (fold_ok cv lhs e e' m (enum2 (fun j i => [i; j]) (ext lhs 1) (ext lhs 0))) as (s & Es & A); auto.
    + apply NoDup_enum2. inj3.
    + intros i. rewrite in_enum2, inb2 by exact HL. unfold ext. firstorder.
    + rewrite Es. exists (snd s). split; [reflexivity|exact A].
Qed.

Lemma fuse3_ok o cv lhs e m : length (bsz lhs) = 3 -> good m lhs e ->
  exists m', fuse3 dv o cv lhs e m = Some m' /\ assigned dv cv lhs e m m'.
Proof.
  intros HL (Hr & Ho & Hn & Hv). unfold fuse3. destruct (evaluate_ok _ _ Hr) as (e' & E & Hr' & S). rewrite E. cbn [bind]. cbv zeta.
  assert (K : forall g n k l, (forall a b c a' b' c', g a b c = g a' b' c' -> a = a' /\ b = b' /\ c = c') ->
      (forall i, (exists x y z, i = g x y z /\ x < n /\ y < k /\ z < l) <->
                 (exists x y z, i = [x; y; z] /\ x < ext lhs 0 /\ y < ext lhs 1 /\ z < ext lhs 2)) ->
      exists m', (s <- loop (fun i s => loop (fun j s => loop (fun k s => put_get cv lhs (g i j k) s) 0 l s) 0 k s) 0 n (e', m) ;; Some (snd s)) = Some m' /\
                 assigned dv cv lhs e m m').
  { intros g n k l Hg Hi. rewrite (loop_enum3 (put_get cv lhs) g).
    destruct (fold_ok cv lhs e e' m (enum3 g n k l)) as (s & Es & A); auto.
    - apply NoDup_enum3. exact Hg.
    - intros i. rewrite in_enum3, inb3 by exact HL. apply Hi.
    - rewrite Es. exists (snd s). split; [reflexivity|exact A]. }
  destruct o.
  - apply (K (fun i j k => [i; j; k])); [inj3|firstorder].
  - apply (K (fun i k j => [i; j; k])); [inj3|]. intros i; split; intros (x & y & z & ?); exists x, z, y; tauto.
  - apply (K (fun j i k => [i; j; k])); [inj3|]. intros i; split; intros (x & y & z & ?); exists y, x, z; tauto.
  - apply (K (fun j k i => [i; j; k])); [inj3|]. intros i; split; intros (x & y & z & ?); [exists z, x, y|exists y, z, x]; tauto.
  - apply (K (fun k i j => [i; j; k])); [inj3|]. intros i; split; intros (x & y & z & ?); [exists y, z, x|exists z, x, y]; tauto.
  - apply (K (fun k j i => [i; j; k])); [inj3|]. intros i; split; intros (x & y & z & ?); exists z, y, x; tauto.
Qed.

(** ** Operators *)
Lemma op_add_cases (l r : expr) :
  op_add l r = Bin Add l r \/
  (exists a b, l = Bin Mult a b /\ op_add l r = Ter Ma a b r) \/
  (exists a b, r = Bin Mult a b /\ op_add l r = Ter Ma a b l).
Proof using Type. clear dv.
  unfold op_add.
  destruct l as [b|w|sz g|o a|o a b|o a b c|byrow w a|sz ix a|sz f a c|sz f a b c|sz f a b d c]; try destruct o;
  destruct r as [b'|w'|sz' g'|o' a'|o' a' b'|o' a' b' c'|byrow' w' a'|sz' ix' a'|sz' f' a' c'|sz' f' a' b' c'|sz' f' a' b' d' c']; try destruct o';
  first [left; reflexivity|right; left; eexists _, _; split; reflexivity|right; right; eexists _, _; split; reflexivity].
Qed.

Lemma apply_op_val o m l r i : val m (apply_op o l r) i =
  (x <- val m l i ;; y <- val m r i ;;
   Some (match o with PlusEq => radd x y | MinusEq => rsub x y | TimesEq => rmul x y | DivEq => dv x y end)).
Proof.
  destruct o; try reflexivity. simpl.
  destruct (op_add_cases l r) as [->|[(a & b & -> & ->)|(a & b & -> & ->)]]; simpl.
  - reflexivity.
  - destruct (val m a i); simpl; [|reflexivity]. destruct (val m b i); simpl; [|reflexivity]. reflexivity.
  - destruct (val m a i); simpl; [|destruct (val m l i); reflexivity].
    destruct (val m b i); simpl; [|destruct (val m l i); reflexivity].
    destruct (val m l i); simpl; [|reflexivity]. f_equal. apply (Radd_comm (r_th R)).
Qed.

Lemma apply_op_reads o (l r : expr) i a : reads (apply_op o l r) i a <-> reads l i a \/ reads r i a.
Proof using Type. clear dv.
  destruct o; simpl; try tauto.
  destruct (op_add_cases l r) as [->|[(x & y & -> & ->)|(x & y & -> & ->)]]; simpl; tauto.
Qed.

Lemma apply_op_ready o m (l r : expr) : ready m l -> ready m r -> ready m (apply_op o l r).
Proof.
  destruct o; simpl; try tauto.
  destruct (op_add_cases l r) as [->|[(x & y & -> & ->)|(x & y & -> & ->)]]; simpl; tauto.
Qed.

Lemma conforms_sized sz (e : expr) : conforms sz e -> sized e = true.
Proof using Type. clear dv. destruct e; simpl; tauto. Qed.

Lemma esize_conforms d : forall (e : expr) sz, conforms sz e -> esize d e = sz.
Proof using Type. clear dv.
  induction e as [b|w|s g|o a IHa|o a IHa b IHb|o a IHa b IHb c IHc|byrow w IHv a IHa|s ix a IHa
                 |s f a IHa c|s f a IHa b IHb c|s f a IHa b IHb d0 IHd c]; simpl; intros sz H; try tauto.
  - auto.
  - destruct H as (Ha & Hb & Hs).
    destruct Ha as [Ha|Ha]; [rewrite Ha in *; simpl in *|rewrite (conforms_sized _ _ Ha); simpl].
    + destruct Hb as [Hb|Hb]; [rewrite Hb in Hs; discriminate|auto].
    + destruct (negb (sized b)); auto.
  - destruct H as (Ha & Hb & Hc & Hs).
    destruct Ha as [Ha|Ha]; [rewrite Ha in *; simpl in *|rewrite (conforms_sized _ _ Ha); auto].
    destruct Hb as [Hb|Hb]; [rewrite Hb in *; simpl in *|rewrite (conforms_sized _ _ Hb); auto].
    destruct Hc as [Hc|Hc]; [rewrite Hc in *; discriminate|auto].
  - apply IHa; tauto.
Qed.

(** Combining operands: the result conforms. *)
Lemma apply_op_conforms o sz (l r : expr) :
  (sized l = false \/ conforms sz l) -> (sized r = false \/ conforms sz r) -> (sized l || sized r) = true ->
  conforms sz (apply_op o l r).
Proof using Type. clear dv.
  intros Hl Hr Hs. destruct o; try (simpl; auto; fail). simpl.
  destruct (op_add_cases l r) as [->|[(x & y & -> & ->)|(x & y & -> & ->)]]; simpl.
  - auto.
  - destruct Hl as [Hl|Hl]; [discriminate|]. simpl in Hl. destruct Hl as (A & B & C). rewrite C. auto.
  - destruct Hr as [Hr|Hr]; [discriminate|]. simpl in Hr. destruct Hr as (A & B & C). rewrite C. auto.
Qed.

Lemma unsized_val m (e : expr) i : sized e = false -> val m e i <> None.
Proof. destruct e; simpl; discriminate. Qed.

Lemma ne_def {X} (x : option X) (k : X -> option R) : x <> None -> (forall y, k y <> None) -> bind x k <> None.
Proof. destruct x; simpl; [auto|contradiction]. Qed.

Lemma conforms_val m : forall (e : expr) sz i, conforms sz e -> ready m e -> leaves_mapped m e -> inb i sz = true -> val m e i <> None.
Proof.
  induction e as [b|w|s g|o a IHa|o a IHa b IHb|o a IHa b IHb c IHc|byrow w IHv a IHa|s ix a IHa
                 |s f a IHa c|s f a IHa b IHb c|s f a IHa b IHb d0 IHd c]; simpl; intros sz i H Hr Hm Hi.
  - subst sz. unfold bload, mload. rewrite Hi. apply Hm. exact Hi.
  - tauto.
  - discriminate.
  - apply ne_def; [eapply IHa; eauto|discriminate].
  - destruct H as (Ha & Hb & _), Hr, Hm. apply ne_def; [destruct Ha; [apply unsized_val; assumption|eapply IHa; eauto]|].
    intros. apply ne_def; [destruct Hb; [apply unsized_val; assumption|eapply IHb; eauto]|discriminate].
  - destruct H as (Ha & Hb & Hc & _), Hr as (? & ? & ?), Hm as (? & ? & ?).
    apply ne_def; [destruct Ha; [apply unsized_val; assumption|eapply IHa; eauto]|].
    intros. apply ne_def; [destruct Hb; [apply unsized_val; assumption|eapply IHb; eauto]|].
    intros. apply ne_def; [destruct Hc; [apply unsized_val; assumption|eapply IHc; eauto]|discriminate].
  - destruct H as (Ha & r & c & -> & Hv), Hr, Hm.
    destruct (proj1 (inb2 i [r; c] eq_refl) Hi) as (x & y & -> & Hx & Hy). simpl in Hx, Hy.
    apply ne_def; [eapply IHv; eauto; simpl; rewrite andb_true_r; apply Nat.ltb_lt; destruct byrow; assumption|].
    intros. apply ne_def; [eapply IHa; eauto|discriminate].
  - destruct H as (-> & sz' & Ha & Hix). rewrite Hi. eapply IHa; eauto.
  - subst. destruct Hr as (Ha & (Hn & _) & _). apply ne_def; [exact Hn|]. rewrite Hi. discriminate.
  - subst. destruct Hr as (Ha & Hb & (Hn & _) & _). apply ne_def; [exact Hn|]. rewrite Hi. discriminate.
  - subst. destruct Hr as (Ha & Hb & Hd & (Hn & _) & _). apply ne_def; [exact Hn|]. rewrite Hi. discriminate.
Qed.

(** ** Compound assignment *)
Lemma assigned_ext cv lhs (e e' : expr) m m' : (forall i, val m e i = val m e' i) ->
  assigned dv cv lhs e m m' -> assigned dv cv lhs e' m m'.
Proof. intros H (A & B). split; [|exact B]. intros i Hi. destruct (A i Hi) as (v & E & K). exists v. rewrite <- H. auto. Qed.

Lemma compound_good o b (rhs : expr) m :
  ready m rhs -> own m b -> no_cross b rhs -> (forall i, inb i (bsz b) = true -> val m rhs i <> None) ->
  good m b (apply_op o (Leaf b) rhs).
Proof.
  intros Hr Ho Hn Hv. pose proof Ho as (Om & Oi). split; [apply apply_op_ready; [exact I|exact Hr]|]. split; [exact Ho|]. split.
  - intros i j Hi Hj Hij K. apply apply_op_reads in K. destruct K as [K|K]; [|exact (Hn i j Hi Hj Hij K)].
    simpl in K. apply Hij. apply Oi; auto.
  - intros i Hi. rewrite apply_op_val. apply ne_def.
    + simpl. unfold bload, mload. rewrite Hi. apply Om. exact Hi.
    + intros. apply ne_def; [apply Hv; exact Hi|discriminate].
Qed.
Lemma assign_op1_ok o b (rhs : expr) m : length (bsz b) = 1 ->
  ready m rhs -> own m b -> no_cross b rhs -> (forall i, inb i (bsz b) = true -> val m rhs i <> None) ->
  exists m', assign_op1 dv o b rhs m = Some m' /\ assigned dv (fun x => x) b (Bin (bin_of o) (Leaf b) rhs) m m'.
Proof.
  intros HL Hr Ho Hn Hv. destruct (fuse1_ok (fun x => x) b (apply_op o (Leaf b) rhs) m HL) as (m' & E & A).
  { apply compound_good; assumption. }
  exists m'. split; [exact E|]. eapply assigned_ext; [|exact A]. intros i. rewrite apply_op_val. destruct o; reflexivity.
Qed.
Lemma assign_op2_ok ord o b (rhs : expr) m : length (bsz b) = 2 ->
  ready m rhs -> own m b -> no_cross b rhs -> (forall i, inb i (bsz b) = true -> val m rhs i <> None) ->
  exists m', assign_op2 dv ord o b rhs m = Some m' /\ assigned dv (fun x => x) b (Bin (bin_of o) (Leaf b) rhs) m m'.
Proof.
  intros HL Hr Ho Hn Hv. destruct (fuse2_ok ord (fun x => x) b (apply_op o (Leaf b) rhs) m HL) as (m' & E & A).
  { apply compound_good; assumption. }
  exists m'. split; [exact E|]. eapply assigned_ext; [|exact A]. intros i. rewrite apply_op_val. destruct o; reflexivity.
Qed.

Lemma elem_op_put_get f b v i m sz : inb i (bsz b) = true -> sz = bsz b ->
  let e := Bin (Fn2 f) (Leaf b) (operand_expr sz v) in
  put_get (fun x => x) b i (e, m) = option_map (pair e) (elem_op f b v i m).
Proof.
  intros Hi Hs. subst sz. simpl. unfold Expr.put_get, elem_op. cbn [fst snd Expr.get bind].
  destruct (bload m b i) as [x|]; [|reflexivity].
  destruct v as [a|b'].
  - unfold operand_expr. cbn [Expr.get bind]. unfold rd. unfold bload at 1. cbn [bsz baddr]. rewrite Hi.
    destruct (mload m a); [|reflexivity]. cbn [bind fst snd ap2]. destruct (bstore m b i _); reflexivity.
  - unfold operand_expr. cbn [Expr.get bind]. unfold rd. destruct (bload m b' i); [|reflexivity].
    cbn [bind fst snd ap2]. destruct (bstore m b i _); reflexivity.
Qed.

Lemma fold_elem_op f b v : forall L m,
  (forall i, In i L -> inb i (bsz b) = true) ->
  let e := Bin (Fn2 f) (Leaf b) (operand_expr (bsz b) v) in
  foldM (put_get (fun x => x) b) L (e, m) = option_map (pair e) (foldM (elem_op f b v) L m).
Proof.
  induction L as [|i L IH]; intros m HL; simpl; [reflexivity|].
  rewrite (elem_op_put_get f b v i m (bsz b)) by (try reflexivity; apply HL; left; reflexivity).
  destruct (elem_op f b v i m) as [m1|]; [|reflexivity]. simpl. apply IH. intros; apply HL; right; assumption.
Qed.

Lemma nofwd_fold f b v m L : own m b -> separate m b v -> NoDup L -> (forall i, In i L <-> inb i (bsz b) = true) ->
  exists m', foldM (elem_op f b v) L m = Some m' /\
             assigned dv (fun x => x) b (Bin (Fn2 f) (Leaf b) (operand_expr (bsz b) v)) m m'.
Proof.
  intros Ho Hs ND HL. pose proof Ho as (Om & Oi).
  set (e := Bin (Fn2 f) (Leaf b) (operand_expr (bsz b) v)).
  destruct (fold_ok (fun x => x) b e e m L ND HL) as (s & E & A).
  - simpl. split; [exact I|]. destruct v; exact I.
  - apply sim_refl.
  - exact Ho.
  - intros i j Hi Hj Hij K. simpl in K. destruct K as [K|K]; [apply Hij; apply Oi; auto|].
    destruct v as [a|b']; simpl in K, Hs.
    + destruct Hs as (_ & Hs). exact (Hs j Hj (eq_sym K)).
    + destruct Hs as (_ & _ & Hs). exact (Hs i j Hi Hj Hij (eq_sym K)).
  - intros i Hi. simpl. apply ne_def.
    + unfold bload, mload. rewrite Hi. apply Om. exact Hi.
    + intros. apply ne_def; [|discriminate]. destruct v as [a|b']; simpl in Hs |- *; unfold bload, mload; cbn [bsz baddr].
      * rewrite Hi. tauto.
      * destruct Hs as (Hb & Hm & _). rewrite Hb, Hi. apply Hm. rewrite Hb. exact Hi.
  - unfold e in E. rewrite fold_elem_op in E by (intros; apply HL; assumption).
    destruct (foldM (elem_op f b v) L m) as [m'|]; [|discriminate]. simpl in E. inversion E; subst s. exists m'. split; [reflexivity|exact A].
Qed.
Lemma conf_separate (m : mem R) b v : separate m b v -> conf b v = true.
Proof. destruct v; simpl; [reflexivity|]. intros (E & _). rewrite E. destruct (list_eq_dec _ _ _); [reflexivity|contradiction]. Qed.

Lemma nofwd1_ok f b v m : length (bsz b) = 1 -> own m b -> separate m b v ->
  exists m', nofwd1 f b v m = Some m' /\ assigned dv (fun x => x) b (Bin (Fn2 f) (Leaf b) (operand_expr (bsz b) v)) m m'.
Proof.
  intros HL Ho Hs. unfold nofwd1. rewrite (conf_separate _ _ _ Hs). rewrite (loop_enum1 (elem_op f b v)).
  apply nofwd_fold; auto; [apply NoDup_enum1|]. intros i. rewrite in_enum1, inb1 by exact HL. reflexivity.
Qed.
Lemma nofwd2_ok f b v m : length (bsz b) = 2 -> own m b -> separate m b v ->
  exists m', nofwd2 f b v m = Some m' /\ assigned dv (fun x => x) b (Bin (Fn2 f) (Leaf b) (operand_expr (bsz b) v)) m m'.
Proof.
  intros HL Ho Hs. unfold nofwd2. rewrite (conf_separate _ _ _ Hs). rewrite (loop_enum2 (elem_op f b v) (fun r c => [r; c])).
  apply nofwd_fold; auto; [apply NoDup_enum2; inj3|]. intros i. rewrite in_enum2, inb2 by exact HL. reflexivity.
Qed.
Lemma nofwd3_ok f b v m : length (bsz b) = 3 -> own m b -> separate m b v ->
  exists m', nofwd3 f b v m = Some m' /\ assigned dv (fun x => x) b (Bin (Fn2 f) (Leaf b) (operand_expr (bsz b) v)) m m'.
Proof.
  intros HL Ho Hs. unfold nofwd3. rewrite (conf_separate _ _ _ Hs). rewrite (loop_enum3 (elem_op f b v) (fun i j k => [i; j; k])).
  apply nofwd_fold; auto; [apply NoDup_enum3; inj3|]. intros i. rewrite in_enum3, inb3 by exact HL. reflexivity.
Qed.
Lemma nofwd_reject (f : R -> R -> R) b b' m : bsz b' <> bsz b ->
  nofwd1 f b (View b') m = None /\ nofwd2 f b (View b') m = None /\ nofwd3 f b (View b') m = None.
Proof using Type. clear dv.
  intros H. unfold nofwd1, nofwd2, nofwd3, conf.
  destruct (list_eq_dec _ _ _) as [E|_]; [exfalso; apply H; auto|]. auto.
Qed.

(** ** vmmul *)
Definition slice (o : ord2) (b : blk) (k : nat) : blk := match o with O01 => brow b k | O10 => bcol b k end.
Definition at_ (o : ord2) (k j : nat) : list nat := match o with O01 => [k; j] | O10 => [j; k] end.
Definition outer (o : ord2) (b : blk) : nat := match o with O01 => ext b 0 | O10 => ext b 1 end.
Definition inner (o : ord2) (b : blk) : nat := match o with O01 => ext b 1 | O10 => ext b 0 end.
Lemma slice_sz o b k : bsz (slice o b k) = [inner o b].
Proof. destruct o; reflexivity. Qed.
Lemma slice_addr o b k j : baddr (slice o b k) [j] = baddr b (at_ o k j).
Proof. destruct o; reflexivity. Qed.
Lemma at_inj o k j k' j' : at_ o k j = at_ o k' j' -> k = k' /\ j = j'.
Proof. destruct o; simpl; intros E; inversion E; auto. Qed.
Lemma at_inb o b k j : length (bsz b) = 2 -> k < outer o b -> j < inner o b -> inb (at_ o k j) (bsz b) = true.
Proof.
  intros HL Hk Hj. apply inb2; [exact HL|]. destruct o; simpl in *; [exists k, j|exists j, k]; auto.
Qed.
Lemma inb_at o b i : length (bsz b) = 2 -> inb i (bsz b) = true -> exists k j, i = at_ o k j /\ k < outer o b /\ j < inner o b.
Proof.
  intros HL Hi. apply inb2 in Hi; [|exact HL]. destruct Hi as (x & y & -> & Hx & Hy).
  destruct o; [exists x, y|exists y, x]; auto.
Qed.

Lemma slices_ok o lhs (e0 : expr) m (f : nat -> mem R -> option (mem R)) :
  length (bsz lhs) = 2 -> own m lhs ->
  (forall k m1, k < outer o lhs ->
     (forall a, (forall k' j, k' < k -> j < inner o lhs -> a <> baddr lhs (at_ o k' j)) -> m1 a = m a) ->
     exists m2, f k m1 = Some m2 /\
       (forall j, j < inner o lhs -> exists v, val m e0 (at_ o k j) = Some v /\ m2 (baddr lhs (at_ o k j)) = Some v) /\
       (forall a, (forall j, j < inner o lhs -> a <> baddr lhs (at_ o k j)) -> m2 a = m1 a)) ->
  exists m', loop f 0 (outer o lhs) m = Some m' /\ assigned dv (fun x => x) lhs e0 m m'.
Proof.
  intros HL (Om & Oi) Hf.
  destruct (loop_inv f (fun n s =>
      (forall k j, k < n -> j < inner o lhs -> exists v, val m e0 (at_ o k j) = Some v /\ s (baddr lhs (at_ o k j)) = Some v) /\
      (forall a, (forall k j, k < n -> j < inner o lhs -> a <> baddr lhs (at_ o k j)) -> s a = m a)) (outer o lhs) 0 m)
    as (s & E & (P1 & P2)).
  - split; [intros k j Hk; lia|reflexivity].
  - simpl. intros x t Hx (A & B).
    destruct (Hf x t ltac:(lia) B) as (m2 & E2 & G1 & G2).
    exists m2. split; [exact E2|]. split.
    + intros k j Hk Hj. destruct (Nat.eq_dec k x) as [->|Hn]; [apply G1; exact Hj|].
      destruct (A k j ltac:(lia) Hj) as (v & V1 & V2). exists v. split; [exact V1|]. rewrite G2; [exact V2|].
      intros j' Hj' Eq. apply Oi in Eq; try (apply at_inb; auto; lia). apply at_inj in Eq. lia.
    + intros a Ha. rewrite G2; [apply B|]; intros; apply Ha; auto; lia.
  - exists s. split; [exact E|]. simpl in P1, P2. split.
    + intros i Hi. destruct (inb_at o lhs i HL Hi) as (k & j & -> & Hk & Hj). apply P1; assumption.
    + intros a Ha. apply P2. intros k j Hk Hj. apply Ha. apply at_inb; auto.
Qed.

Lemma slice_fuse o lhs k (e : expr) m1 :
  good m1 (slice o lhs k) e ->
  exists m2, fuse1 dv (fun x => x) (slice o lhs k) e m1 = Some m2 /\
     (forall j, j < inner o lhs -> exists v, val m1 e [j] = Some v /\ m2 (baddr lhs (at_ o k j)) = Some v) /\
     (forall a, (forall j, j < inner o lhs -> a <> baddr lhs (at_ o k j)) -> m2 a = m1 a).
Proof.
  intros G. destruct (fuse1_ok (fun x => x) (slice o lhs k) e m1) as (m2 & E & A & B).
  - rewrite slice_sz. reflexivity.
  - exact G.
  - exists m2. split; [exact E|]. rewrite slice_sz in A, B. split.
    + intros j Hj. destruct (A [j]) as (v & V1 & V2); [simpl; rewrite andb_true_r; apply Nat.ltb_lt; exact Hj|].
      rewrite slice_addr in V2. exists v. auto.
    + intros a Ha. apply B. intros i Hi. apply inb1 in Hi; [|reflexivity]. destruct Hi as (j & -> & Hj). rewrite slice_addr. apply Ha. exact Hj.
Qed.

Lemma vmmul_gen o (full_ : bool) lhs v a m :
  length (bsz lhs) = 2 -> bsz a = bsz lhs -> bsz v = [if full_ then inner o lhs else outer o lhs] ->
  own m lhs -> mapped m v -> mapped m a ->
  let byrow := match o with O01 => full_ | O10 => negb full_ end in
  no_cross lhs (Vmm byrow (Leaf v) (Leaf a) : expr) ->
  exists m', loop (fun k m => if full_ then fuse1 dv (fun x => x) (slice o lhs k) (op_mul (Leaf v) (Leaf (slice o a k))) m
                              else s <- bload m v [k] ;; fuse1 dv (fun x => x) (slice o lhs k) (op_mul (Scal s) (Leaf (slice o a k))) m)
                  0 (outer o lhs) m = Some m' /\
             assigned dv (fun x => x) lhs (Vmm byrow (Leaf v) (Leaf a) : expr) m m'.
Proof.
  intros HL Ha Hv Ho Mv Ma byrow NC. pose proof Ho as (Om & Oi).
  assert (Hin : inner o a = inner o lhs) by (destruct o; simpl; unfold ext; rewrite Ha; reflexivity).
  assert (HR : forall k j, k < outer o lhs -> j < inner o lhs ->
     forall x, reads (Vmm byrow (Leaf v) (Leaf a) : expr) (at_ o k j) x <-> x = baddr v [if full_ then j else k] \/ x = baddr a (at_ o k j)).
  { intros k j Hk Hj x. destruct o, full_; simpl; tauto. }
  assert (HV : forall k j, k < outer o lhs -> j < inner o lhs ->
     exists p q, m (baddr v [if full_ then j else k]) = Some p /\ m (baddr a (at_ o k j)) = Some q /\
                 val m (Vmm byrow (Leaf v) (Leaf a) : expr) (at_ o k j) = Some (rmul p q)).
  { intros k j Hk Hj.
    assert (I1 : inb [if full_ then j else k] (bsz v) = true).
    { rewrite Hv. simpl. rewrite andb_true_r. apply Nat.ltb_lt. destruct full_; assumption. }
    assert (I2 : inb (at_ o k j) (bsz a) = true) by (rewrite Ha; apply at_inb; auto).
    pose proof (Mv _ I1) as N1. pose proof (Ma _ I2) as N2.
    destruct (m (baddr v [if full_ then j else k])) as [p|] eqn:E1; [|contradiction].
    destruct (m (baddr a (at_ o k j))) as [q|] eqn:E2; [|contradiction].
    exists p, q. split; [reflexivity|]. split; [reflexivity|].
    destruct o, full_; cbn [at_ Expr.val byrow negb]; unfold bload, mload; cbn [at_] in I1, I2, E1, E2;
      rewrite I1, E1; cbn [bind]; rewrite I2, E2; reflexivity. }
  apply slices_ok; auto. intros k m1 Hk Hm1.
  (* the cells slice k reads are not yet written *)
  assert (Hfresh : forall j x, j < inner o lhs -> reads (Vmm byrow (Leaf v) (Leaf a) : expr) (at_ o k j) x -> m1 x = m x).
  { intros j x Hj Hx. apply Hm1. intros k' j' Hk' Hj' ->. revert Hx. apply NC; try (apply at_inb; auto; lia).
    intros E. apply at_inj in E. lia. }
  assert (Hown : own m1 (slice o lhs k)).
  { split.
    - rewrite slice_sz. intros i Hi. apply inb1 in Hi; [|reflexivity]. destruct Hi as (j & -> & Hj). simpl in Hj.
      rewrite slice_addr. rewrite Hm1; [apply Om; apply at_inb; auto|].
      intros k' j' Hk' Hj' E. apply Oi in E; try (apply at_inb; auto; lia). apply at_inj in E. lia.
    - rewrite slice_sz. intros i i' Hi Hi' E. apply inb1 in Hi; [|reflexivity]. apply inb1 in Hi'; [|reflexivity].
      destruct Hi as (j & -> & Hj), Hi' as (j' & -> & Hj'). simpl in Hj, Hj'. rewrite !slice_addr in E.
      apply Oi in E; try (apply at_inb; auto; lia). apply at_inj in E. destruct E as (_ & ->). reflexivity. }
  assert (HvS : forall j, j < inner o lhs -> bload m1 (slice o a k) [j] = m (baddr a (at_ o k j))).
  { intros j Hj. unfold bload, mload. rewrite slice_sz, slice_addr, Hin. simpl inb.
    rewrite (proj2 (Nat.ltb_lt _ _) Hj). simpl. apply (Hfresh j); [exact Hj|]. apply HR; auto. }
  assert (Hcross : forall j j', j < inner o lhs -> j' < inner o lhs -> j <> j' -> baddr a (at_ o k j) <> baddr lhs (at_ o k j')).
  { intros j j' Hj Hj' Hn E. apply (NC (at_ o k j) (at_ o k j')); try (apply at_inb; auto).
    - intros K. apply at_inj in K. lia.
    - apply HR; auto. }
  destruct full_.
  - assert (HvV : forall j, j < inner o lhs -> bload m1 v [j] = m (baddr v [j])).
    { intros j Hj. unfold bload, mload. rewrite Hv. simpl inb. rewrite (proj2 (Nat.ltb_lt _ _) Hj). simpl.
      apply (Hfresh j); [exact Hj|]. apply HR; auto. }
    destruct (slice_fuse o lhs k (op_mul (Leaf v) (Leaf (slice o a k))) m1) as (m2 & E & A & B); auto.
    { split; [simpl; auto|]. split; [exact Hown|]. split.
      - intros i i' Hi Hi' Hn K. rewrite slice_sz in Hi, Hi'. apply inb1 in Hi; [|reflexivity]. apply inb1 in Hi'; [|reflexivity].
        destruct Hi as (j & -> & Hj), Hi' as (j' & -> & Hj'). simpl in Hj, Hj'. rewrite slice_addr in K. simpl in K. rewrite slice_addr in K.
        destruct K as [K|K].
        + apply (NC (at_ o k j) (at_ o k j')); try (apply at_inb; auto).
          * intros Q. apply at_inj in Q. destruct Q as (_ & ->). contradiction.
          * apply HR; auto.
        + apply (Hcross j j'); auto. intros ->. contradiction.
      - intros i Hi. rewrite slice_sz in Hi. apply inb1 in Hi; [|reflexivity]. destruct Hi as (j & -> & Hj). simpl in Hj. simpl.
        rewrite HvV, HvS by exact Hj. destruct (HV k j Hk Hj) as (p & q & -> & -> & _). discriminate. }
    exists m2. split; [exact E|]. split; [|exact B]. intros j Hj. destruct (A j Hj) as (w & W1 & W2). exists w. split; [|exact W2].
    simpl in W1. rewrite HvV, HvS in W1 by exact Hj. destruct (HV k j Hk Hj) as (p & q & Ep & Eq & ->). rewrite Ep, Eq in W1. exact W1.
  - assert (HvK : bload m1 v [k] = m (baddr v [k])).
    { unfold bload, mload. rewrite Hv. simpl inb. rewrite (proj2 (Nat.ltb_lt _ _) Hk). simpl.
      destruct (Nat.eq_dec (inner o lhs) 0) as [Z0|Z0].
      - apply Hm1. intros. lia.
      - apply (Hfresh 0); [lia|]. apply HR; auto. lia. }
    assert (Mk : m (baddr v [k]) <> None).
    { apply Mv. rewrite Hv. simpl. rewrite (proj2 (Nat.ltb_lt _ _) Hk). reflexivity. }
    rewrite HvK. destruct (m (baddr v [k])) as [p|] eqn:Ep; [|contradiction]. cbn [bind].
    destruct (slice_fuse o lhs k (op_mul (Scal p) (Leaf (slice o a k))) m1) as (m2 & E & A & B); auto.
    { split; [simpl; auto|]. split; [exact Hown|]. split.
      - intros i i' Hi Hi' Hn K. rewrite slice_sz in Hi, Hi'. apply inb1 in Hi; [|reflexivity]. apply inb1 in Hi'; [|reflexivity].
        destruct Hi as (j & -> & Hj), Hi' as (j' & -> & Hj'). simpl in Hj, Hj'. rewrite slice_addr in K. simpl in K. rewrite slice_addr in K.
        destruct K as [K|K]; [exact K|]. apply (Hcross j j'); auto. intros ->. contradiction.
      - intros i Hi. rewrite slice_sz in Hi. apply inb1 in Hi; [|reflexivity]. destruct Hi as (j & -> & Hj). simpl in Hj. simpl.
        rewrite HvS by exact Hj. destruct (HV k j Hk Hj) as (p' & q & _ & -> & _). discriminate. }
    exists m2. split; [exact E|]. split; [|exact B]. intros j Hj. destruct (A j Hj) as (w & W1 & W2). exists w. split; [|exact W2].
    simpl in W1. rewrite HvS in W1 by exact Hj. destruct (HV k j Hk Hj) as (p' & q & Ep' & Eq & ->).
    rewrite Ep in Ep'. inversion Ep'; subst p'. rewrite Eq in W1. exact W1.
Qed.

Lemma vmmul_ok o (byrow : bool) lhs v a (m : mem R) rows cols :
  bsz lhs = [rows; cols] -> bsz a = [rows; cols] -> bsz v = [if byrow then cols else rows] ->
  own m lhs -> mapped m v -> mapped m a -> no_cross (R := R) lhs (Vmm byrow (Leaf v) (Leaf a) : expr) ->
  exists m', vmmul dv o byrow lhs v a m = Some m' /\ assigned (R := R) dv (fun x : R => x) lhs (Vmm byrow (Leaf v) (Leaf a) : expr) m m'.
Proof.
  intros HL Ha Hv Ho Mv Ma NC.
  assert (E0 : ext lhs 0 = rows) by (unfold ext; rewrite HL; reflexivity).
  assert (E1 : ext lhs 1 = cols) by (unfold ext; rewrite HL; reflexivity).
  assert (L2 : length (bsz lhs) = 2) by (rewrite HL; reflexivity).
  destruct o, byrow.
  - apply (vmmul_gen O01 true); auto; simpl; rewrite ?E0, ?E1; congruence.
  - apply (vmmul_gen O01 false); auto; simpl; rewrite ?E0, ?E1; congruence.
  - apply (vmmul_gen O10 false); auto; simpl; rewrite ?E0, ?E1; congruence.
  - apply (vmmul_gen O10 true); auto; simpl; rewrite ?E0, ?E1; congruence.
Qed.
End P.
