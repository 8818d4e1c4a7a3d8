(** Proofs about direct data access. *)
From Coq Require Import ZArith List Lia Bool FinFun.
From Verif Require Import Base Domain DomainProofs Traversal TraversalProofs Layout LayoutProofs Views ViewsProofs Dda.
Import ListNotations.
Open Scope Z_scope.

Lemma row_valid D : (1 <= D <= 3)%nat -> Traversal.order_valid D (row_order D) = true.
Proof. intros H. destruct D as [|[|[|[|D]]]]; try lia; reflexivity. Qed.

Lemma nat_range ext i : Forall (fun n => 0 <= n) ext ->
  Traversal.in_range (map Z.to_nat ext) i <-> in_range ext (map Z.of_nat i).
Proof.
  intros H. split; intros R.
  - revert i R. induction ext as [|e ext IH]; intros i R; inversion R as [|x ? l ? Hx Hl]; subst; cbn [map]; constructor.
    + inversion H; subst. lia.
    + apply IH; [inversion H; assumption|assumption].
  - revert i R. induction ext as [|e ext IH]; intros i R; destruct i as [|x i]; inversion R as [|? ? ? ? Hx Hl]; subst; cbn [map]; constructor.
    + lia.
    + apply IH; [inversion H; assumption|assumption].
Qed.

Lemma sizes_nonneg v : wf v -> Forall (fun n => 0 <= n) (sizes v).
Proof.
  intros W. destruct (wf_dim v W) as [_ S]. unfold sizes. apply Forall_forall. intros n Hn. apply in_map_iff in Hn as (d & <- & Hd).
  apply in_seq in Hd. specialize (S d ltac:(lia)). lia.
Qed.

Lemma indices_ok v : wf v -> exists ix n, (forall fuel, (n <= fuel)%nat -> indices fuel v = Some ix) /\
  (forall i, In i ix <-> in_range (sizes v) i) /\ NoDup ix.
Proof.
  intros W. destruct (wf_dim v W) as [D _]. pose proof (sizes_nonneg v W) as N.
  destruct (traverse_lemma (row_order (dim v)) (map Z.to_nat (sizes v))) as (l & n & T & M & ND & _).
  { rewrite map_length, len_sizes. apply row_valid. exact D. }
  rewrite map_length, len_sizes in T.
  exists (map (map Z.of_nat) l), n. split; [|split].
  - intros fuel Hf. unfold indices. rewrite T by exact Hf. reflexivity.
  - intros i. rewrite in_map_iff. split.
    + intros (j & <- & Hj). apply nat_range; [exact N|]. apply M. exact Hj.
    + intros R. exists (map Z.to_nat i). assert (E : map Z.of_nat (map Z.to_nat i) = i).
      { rewrite map_map. clear -R. induction R as [|x e i ext Hx R IH]; cbn [map]; [reflexivity|]. rewrite IH, Z2Nat.id by lia. reflexivity. }
      split; [exact E|]. apply M, nat_range; [exact N|]. rewrite E. exact R.
  - apply Injective_map_NoDup; [|exact ND]. intros a b E. revert b E.
    induction a as [|x a IH]; intros [|y b] E; cbn [map] in E; try discriminate; [reflexivity|]. injection E as E1 E2. f_equal; [lia|auto].
Qed.

Section Sync.
Context {V : Type}.
Implicit Types (m b : mem V).

Lemma each_inv {S A} (f : A -> S -> option S) (P : list A -> S -> Prop) l : forall done s,
  P done s -> (forall x d t, In x l -> P d t -> exists t', f x t = Some t' /\ P (d ++ [x]) t') ->
  exists s', each f l s = Some s' /\ P (done ++ l) s'.
Proof.
  induction l as [|x l IH]; intros d s H0 H; cbn [each].
  - exists s. rewrite app_nil_r. auto.
  - destruct (H x d s (or_introl eq_refl) H0) as (t & E & Ht). rewrite E. cbn [bind].
    destruct (IH (d ++ [x]) t Ht) as (s' & E' & Hs).
    + intros y d' u Hy. apply H. right; exact Hy.
    + exists s'. split; [exact E'|]. rewrite <- app_assoc in Hs. exact Hs.
Qed.

Lemma mload_alloc m n a : allocated m n -> 0 <= a < n -> exists y, mload m a = Some y.
Proof. intros H Ha. exact (H a Ha). Qed.
Lemma mstore_alloc m n a x : allocated m n -> 0 <= a < n -> mstore m a x = Some (mupd m a x) /\ allocated (mupd m a x) n.
Proof.
  intros H Ha. destruct (H a Ha) as (y & E). unfold mstore. rewrite E. split; [reflexivity|].
  intros c Hc. unfold mupd. destruct (Z.eqb c a); [eauto|apply H; exact Hc].
Qed.
Lemma mupd_at m a x : mupd m a x a = Some x.
Proof. unfold mupd. rewrite Z.eqb_refl. reflexivity. Qed.
Lemma mupd_ne m a x c : c <> a -> mupd m a x c = m c.
Proof. intros H. unfold mupd. destruct (Z.eqb_spec c a); [contradiction|reflexivity]. Qed.

Definition rsize v := total_size (root_layout v).
Definition uroot v := Root (root_ext v) (root_layout v).
Lemma rest_refl v m : rest_same v m m. Proof. intros a _. reflexivity. Qed.
Lemma rest_trans v m1 m2 m3 : rest_same v m1 m2 -> rest_same v m2 m3 -> rest_same v m1 m3.
Proof. intros A B a H. rewrite B, A by exact H. reflexivity. Qed.

Lemma get_addr v m i : wf v -> in_range (sizes v) i -> get v m i = mload m (ptr v + dot_strides (vstride v) 0 i).
Proof.
  intros W R. destruct (view_lemma v W) as [St U]. destruct (U i R) as (r & _ & Rr & G & _ & A).
  rewrite G. cbn [get]. rewrite A. reflexivity.
Qed.
Lemma put_addr v m i x : wf v -> in_range (sizes v) i -> put v m i x = mstore m (ptr v + dot_strides (vstride v) 0 i) x.
Proof.
  intros W R. destruct (view_lemma v W) as [St U]. destruct (U i R) as (r & _ & Rr & _ & P & A).
  rewrite P. cbn [put]. rewrite A. reflexivity.
Qed.
Lemma addr_range v i : wf v -> in_range (sizes v) i -> 0 <= ptr v + dot_strides (vstride v) 0 i < rsize v.
Proof.
  intros W R. destruct (names_exists v i W R) as (r & N). apply (ptr_lemma v i r W R). apply N. reflexivity.
Qed.
Lemma get_def v m i : wf v -> in_range (sizes v) i -> allocated m (rsize v) -> exists x, get v m i = Some x.
Proof. intros W R A. rewrite get_addr by assumption. eapply mload_alloc; [exact A|]. apply addr_range; assumption. Qed.

Lemma put_ok v m i x : wf v -> no_repeat v -> in_range (sizes v) i -> allocated m (rsize v) ->
  exists m', put v m i x = Some m' /\ get v m' i = Some x /\ (forall j, in_range (sizes v) j -> j <> i -> get v m' j = get v m j) /\
    rest_same v m m' /\ allocated m' (rsize v).
Proof.
  intros W NR R A. destruct (names_exists v i W R) as (r & N). assert (Nr : names v i r) by (apply N; reflexivity). clear N.
  destruct (put_get_lemma v i x m W NR R A) as (m' & E & G2 & O2).
  exists m'. split; [exact E|]. split; [exact G2|]. split; [exact O2|].
  rewrite put_addr in E by assumption. destruct (mstore_alloc m _ _ x A (addr_range v i W R)) as [E3 A3].
  assert (mupd m (ptr v + dot_strides (vstride v) 0 i) x = m') as <- by congruence. split; [|exact A3].
  intros a Ha. apply mupd_ne. intros ->. destruct (view_lemma v W) as [St U]. destruct (U i R) as (r' & N' & _ & _ & _ & A').
  eapply Ha; [exact R| |exact A']. apply N'. reflexivity.
Qed.

(** From here on: a block, and fuel enough for its traversal. *)
Context (v : view) (W : wf v) (NR : no_repeat v) (fuel : nat) (ix : list (list Z)).
Context (T : indices fuel v = Some ix) (M : forall i, In i ix <-> in_range (sizes v) i).

Lemma copy_in_ok l m b : stored (sizes v) l -> allocated m (rsize v) -> allocated b (total_size l) ->
  exists b', copy_in fuel v l m b = Some b' /\ allocated b' (total_size l) /\
    forall i, in_range (sizes v) i -> b' (dot_strides (stride l) 0 i) = get v m i.
Proof using W T M.
  intros S A B. unfold copy_in. rewrite T. cbn [bind].
  destruct (each_inv (fun i b => x <- get v m i ;; a <- index l i ;; mstore b a x)
     (fun d t => allocated t (total_size l) /\ forall i, In i d -> in_range (sizes v) i /\ t (dot_strides (stride l) 0 i) = get v m i) ix [] b) as (b' & E & Ab & G).
  - split; [exact B|]. intros i [].
  - intros i d t Hi (At & Gt). apply M in Hi. destruct (get_def v m i W Hi A) as (x & Ex). rewrite Ex. cbn [bind].
    destruct (stored_root _ _ i S Hi) as [Ei Bi]. rewrite Ei. cbn [bind].
    destruct (mstore_alloc t _ _ x At Bi) as [Es As]. exists (mupd t (dot_strides (stride l) 0 i) x). split; [exact Es|]. split; [exact As|].
    intros j Hj. apply in_app_iff in Hj as [Hj|[<-|[]]].
    + destruct (Gt j Hj) as [Rj Gj]. split; [exact Rj|].
      destruct (list_eq_dec Z.eq_dec j i) as [->|Ne]; [rewrite mupd_at; symmetry; exact Ex|]. rewrite mupd_ne; [exact Gj|].
      intros C. apply Ne. apply (stored_inj _ l j i S Rj Hi). destruct (stored_root _ _ j S Rj) as [-> _]. rewrite Ei. congruence.
    + split; [exact Hi|]. rewrite mupd_at. symmetry. exact Ex.
  - exists b'. split; [exact E|]. split; [exact Ab|]. intros i R. apply G. apply M in R. exact R.
Qed.

Lemma copy_out_ok l m b : stored (sizes v) l -> allocated m (rsize v) -> allocated b (total_size l) ->
  exists m', copy_out fuel v l m b = Some m' /\ allocated m' (rsize v) /\ rest_same v m m' /\
    forall i, in_range (sizes v) i -> get v m' i = b (dot_strides (stride l) 0 i).
Proof using W NR T M.
  intros S A B. unfold copy_out. rewrite T. cbn [bind].
  destruct (each_inv (fun i m => a <- index l i ;; x <- mload b a ;; put v m i x)
     (fun d t => (allocated t (rsize v) /\ rest_same v m t) /\ forall i, In i d -> in_range (sizes v) i /\ get v t i = b (dot_strides (stride l) 0 i)) ix [] m)
     as (m' & E & (Am & Rm) & G).
  - split; [split; [exact A|apply rest_refl]|]. intros i [].
  - intros i d t Hi ((At & Rt) & Gt). apply M in Hi. destruct (stored_root _ _ i S Hi) as [Ei Bi]. rewrite Ei. cbn [bind].
    destruct (mload_alloc b _ _ B Bi) as (x & Ex). rewrite Ex. cbn [bind].
    destruct (put_ok v t i x W NR Hi At) as (t' & Ep & Gp & Op & Rp & Ap). exists t'. split; [exact Ep|].
    split; [split; [exact Ap|eapply rest_trans; eassumption]|].
    intros j Hj. apply in_app_iff in Hj as [Hj|[<-|[]]].
    + destruct (Gt j Hj) as [Rj Gj]. split; [exact Rj|].
      destruct (list_eq_dec Z.eq_dec j i) as [->|Ne]; [rewrite Gp; symmetry; exact Ex|]. rewrite Op by assumption. exact Gj.
    + split; [exact Hi|]. rewrite Gp. symmetry. exact Ex.
  - exists m'. split; [exact E|]. split; [exact Am|]. split; [exact Rm|]. intros i R. apply G. apply M in R. exact R.
Qed.

Record inv (w : window) (m0 : mem V) (f : elems) (s : state) : Prop := {
  i_m : allocated (blk s) (rsize v); i_rest : rest_same v m0 (blk s); i_w : window_ok v w (buf s);
  i_f : forall i x, in_range (sizes v) i -> f i = Some x ->
        match w with InBlock => get v (blk s) i = Some x | InBuffer l => buf s (dot_strides (stride l) 0 i) = Some x end;
  i_d : dirty s = false -> forall i x, in_range (sizes v) i -> f i = Some x -> get v (blk s) i = Some x
}.

Lemma sync_out_inv w m0 f s P check : inv w m0 f s ->
  exists s', sync_out fuel P check v w s = Some s' /\ inv w m0 f s' /\
    (p_out P = true -> forall i x, in_range (sizes v) i -> f i = Some x -> get v (blk s') i = Some x).
Proof using W NR T M.
  intros I. unfold sync_out. destruct w as [|l].
  - exists s. split; [reflexivity|]. split; [exact I|]. intros _. exact (i_f _ _ _ _ I).
  - destruct I as [Im Ir [Iw1 Iw2] If Id]. destruct (p_out P && (dirty s || negb check)) eqn:Ec.
    + destruct (copy_out_ok l (blk s) (buf s) Iw1 Im Iw2) as (m' & E & A & R & G).
      rewrite E. cbn [bind]. eexists. split; [reflexivity|].
      assert (K : forall i x, in_range (sizes v) i -> f i = Some x -> get v m' i = Some x) by (intros i x Hi Hx; rewrite G by exact Hi; exact (If i x Hi Hx)).
      split; [|intros _; exact K].
      constructor; cbn [blk buf dirty]; auto; [eapply rest_trans; eassumption|split; assumption].
    + exists s. split; [reflexivity|]. split; [constructor; auto; split; assumption|].
      intros Ep. rewrite Ep in Ec. cbn [andb] in Ec. apply orb_false_elim in Ec as [Ed _]. exact (Id Ed).
Qed.

Lemma exec_inv w m0 f s P check o : inv w m0 f s -> op_in (sizes v) o ->
  exists s' r, exec fuel P check v w s o = Some (s', r) /\
    Forall2 agrees (reads f [o]) r /\ inv w m0 (after f [o]) s'.
Proof using W NR T M.
  intros I O. destruct o as [i|i x|].
  - cbn [op_in] in O. destruct w as [|l]; cbn [exec].
    + change (addr v InBlock i) with (ptr v + dot_strides (vstride v) 0 i). rewrite <- get_addr by assumption.
      destruct (get_def v (blk s) i W O (i_m _ _ _ _ I)) as (y & Ey). rewrite Ey. cbn [bind]. exists s, [y].
      split; [reflexivity|]. split; [|exact I]. constructor; [|constructor]. intros x Hx. pose proof (i_f _ _ _ _ I i x O Hx) as Q. cbn in Q. congruence.
    + change (addr v (InBuffer l) i) with (dot_strides (stride l) 0 i). destruct (i_w _ _ _ _ I) as [S B]. destruct (stored_root _ _ i S O) as [_ Bi].
      destruct (mload_alloc _ _ _ B Bi) as (y & Ey). rewrite Ey. cbn [bind]. exists s, [y].
      split; [reflexivity|]. split; [|exact I]. constructor; [|constructor]. intros x Hx. pose proof (i_f _ _ _ _ I i x O Hx) as Q. cbn in Q. unfold mload in Ey. congruence.
  - cbn [op_in] in O. destruct I as [Im Ir Iw If Id]. destruct w as [|l]; cbn [exec].
    + change (addr v InBlock i) with (ptr v + dot_strides (vstride v) 0 i). rewrite <- put_addr by assumption.
      destruct (put_ok v (blk s) i x W NR O Im) as (m' & E & G & Ot & R & A). rewrite E. cbn [bind]. eexists _, [].
      split; [reflexivity|]. split; [constructor|]. constructor; cbn [blk buf dirty]; auto; [eapply rest_trans; eassumption| |discriminate].
      cbn [after]. intros j y Rj Hj. unfold set in Hj. destruct (list_eq_dec Z.eq_dec j i) as [->|Ne]; [congruence|].
      rewrite Ot by assumption. apply (If j y Rj Hj).
    + change (addr v (InBuffer l) i) with (dot_strides (stride l) 0 i). destruct Iw as [S B]. destruct (stored_root _ _ i S O) as [Ei Bi].
      destruct (mstore_alloc _ _ _ x B Bi) as [Es As]. rewrite Es. cbn [bind]. eexists _, [].
      split; [reflexivity|]. split; [constructor|]. constructor; cbn [blk buf dirty]; auto; [split; assumption| |discriminate].
      cbn [after]. intros j y Rj Hj. unfold set in Hj. destruct (list_eq_dec Z.eq_dec j i) as [->|Ne]; [rewrite mupd_at; exact Hj|].
      rewrite mupd_ne; [exact (If j y Rj Hj)|]. intros C. apply Ne. apply (stored_inj _ l j i S Rj O).
      destruct (stored_root _ _ j S Rj) as [-> _]. rewrite Ei. congruence.
  - destruct (sync_out_inv w m0 f s P check I) as (s' & E & I' & _).
    exists s', []. cbn [exec]. destruct w; rewrite E; (split; [reflexivity|]); (split; [constructor|exact I']).
Qed.

Lemma reads_cons (f : @elems V) o l : reads f (o :: l) = reads f [o] ++ reads (after f [o]) l.
Proof using. destruct o; reflexivity. Qed.
Lemma after_cons (f : @elems V) o l : after f (o :: l) = after (after f [o]) l.
Proof using. destruct o; reflexivity. Qed.

Lemma run_inv w m0 P check l : forall f s, inv w m0 f s -> Forall (op_in (sizes v)) l ->
  exists s' rs, run fuel P check v w s l = Some (s', rs) /\
    Forall2 agrees (reads f l) rs /\ inv w m0 (after f l) s'.
Proof using W NR T M.
  induction l as [|o l IH]; intros f s I O.
  - exists s, []. split; [reflexivity|]. split; [constructor|exact I].
  - inversion O as [|? ? Oo Ol]; subst. destruct (exec_inv w m0 f s P check o I Oo) as (s1 & r1 & E1 & A1 & I1).
    destruct (IH _ s1 I1 Ol) as (s' & rs & E & Fr & If). cbn [run]. rewrite E1. cbn [bind fst snd]. rewrite E. cbn [bind fst snd].
    exists s', (r1 ++ rs). split; [reflexivity|]. rewrite reads_cons, (after_cons f o l). split; [apply Forall2_app; assumption|exact If].
Qed.

Lemma open_inv w m b P : window_ok v w b -> allocated m (rsize v) ->
  exists s, open fuel P v w m b = Some s /\
    inv w m (if p_in P then get v m else fun _ => None) s /\ blk s = m.
Proof using W T M.
  intros Ow A. destruct w as [|l]; cbn [open].
  - eexists. split; [reflexivity|]. split; [|reflexivity]. constructor; cbn [blk buf dirty]; auto; [apply rest_refl| |];
    destruct (p_in P); intros; auto; discriminate.
  - destruct Ow as [S B]. destruct (p_in P).
    + destruct (copy_in_ok l m b S A B) as (b' & E & Ab & G). rewrite E. cbn [bind].
      eexists. split; [reflexivity|]. split; [|reflexivity]. constructor; cbn [blk buf dirty]; auto; [apply rest_refl|split; assumption|].
      intros i x R Hx. rewrite G by exact R. exact Hx.
    + eexists. split; [reflexivity|]. split; [|reflexivity].
      constructor; cbn [blk buf dirty]; auto; [apply rest_refl|split; assumption| |]; discriminate.
Qed.

Lemma session_ok P check w m b l : window_ok v w b -> allocated m (rsize v) -> Forall (op_in (sizes v)) l ->
  exists m' rs, session fuel P check v w m b l = Some (m', rs) /\
    Forall2 agrees (reads (if p_in P then get v m else fun _ => None) l) rs /\
    (p_out P = true -> forall i x, in_range (sizes v) i -> after (if p_in P then get v m else fun _ => None) l i = Some x -> get v m' i = Some x) /\
    rest_same v m m' /\
    (p_out P = false -> (w <> InBlock \/ Forall (fun o => writes o = false) l) -> m' = m).
Proof using W NR T M.
  intros Ow A O. destruct (open_inv w m b P Ow A) as (s & E1 & I1 & Eb).
  destruct (run_inv w m P check l _ s I1 O) as (s1 & rs & E2 & F2 & I2).
  destruct (sync_out_inv w m _ s1 P check I2) as (s2 & E3 & I3 & K).
  exists (blk s2), rs. unfold session. rewrite E1. cbn [bind]. rewrite E2. cbn [bind fst snd]. rewrite E3. cbn [bind].
  split; [reflexivity|]. split; [exact F2|]. split; [exact K|]. split; [exact (i_rest _ _ _ _ I3)|].
  intros Po Hw. assert (SO : forall s s' : @state V, sync_out fuel P check v w s = Some s' -> s' = s).
  { intros t t'. unfold sync_out. destruct w; [congruence|]. rewrite Po. cbn [andb]. congruence. }
  rewrite (SO _ _ E3). clear E3 K I3 I2 F2 I1 E1. rewrite <- Eb. clear Eb Ow A.
  revert s s1 rs E2. induction l as [|o l IH]; intros s s1 rs E2; cbn [run] in E2; [injection E2 as <- _; reflexivity|].
  destruct (exec fuel P check v w s o) as [[t r]|] eqn:Ex; [|discriminate]. cbn [bind fst snd] in E2.
  destruct (run fuel P check v w t l) as [[t' rs']|] eqn:Er; [|discriminate]. cbn [bind fst snd] in E2. injection E2 as <- _.
  assert (Q : blk t = blk s).
  { destruct o as [i|i x|]; cbn [exec] in Ex.
    - destruct w; match type of Ex with context [mload ?a ?c] => destruct (mload a c); [|discriminate] end; injection Ex as <- _; reflexivity.
    - destruct w as [|a].
      + destruct Hw as [Hw|Hw]; [congruence|]. inversion Hw as [|? ? C _]. discriminate C.
      + destruct (mstore (buf s) _ x); [|discriminate]. injection Ex as <- _. reflexivity.
    - destruct w; destruct (sync_out fuel P check v _ s) as [q|] eqn:Es; try discriminate; apply SO in Es as ->; cbn [bind] in Ex; injection Ex as <- _; reflexivity. }
  rewrite <- Q. inversion O; subst. eapply IH; [assumption| |exact Er]. destruct Hw as [Hw|Hw]; [auto|right; inversion Hw; assumption].
Qed.
End Sync.

Lemma session_lemma {V} P check v w (m b : mem V) l : wf v -> no_repeat v -> window_ok v w b -> allocated m (total_size (root_layout v)) ->
  Forall (op_in (sizes v)) l ->
  exists n, forall fuel, (n <= fuel)%nat -> exists m' rs, session fuel P check v w m b l = Some (m', rs) /\
    Forall2 agrees (reads (if p_in P then get v m else fun _ => None) l) rs /\
    (p_out P = true -> forall i x, in_range (sizes v) i -> after (if p_in P then get v m else fun _ => None) l i = Some x -> get v m' i = Some x) /\
    rest_same v m m' /\
    (p_out P = false -> (w <> InBlock \/ Forall (fun o => writes o = false) l) -> m' = m).
Proof.
  intros W NR Ow A O. destruct (indices_ok v W) as (ix & n & T & M & _). exists n. intros fuel Hf.
  exact (session_ok v W NR fuel ix (T fuel Hf) M P check w m b l Ow A O).
Qed.

(** ** Layout promises *)

Lemma make_layout_unit o p ext l : make_layout o p ext = Some l -> stride l (last o 0%nat) = 1.
Proof.
  intros H. mk H. destruct ext as [|a [|b [|c [|? ?]]]]; try discriminate Ho.
  - orders Ho. destruct p; try destruct ((A =? p_aligned) || is_aligned_enum A); inversion H; subst; reflexivity.
  - orders Ho; destruct p; try destruct (is_aligned_enum A); inversion H; subst; reflexivity.
  - orders Ho; destruct p; try destruct (is_aligned_enum A); inversion H; subst; reflexivity.
Qed.

Lemma make_layout_rank o ext l i : make_layout o P_dense ext = Some l -> in_range ext i ->
  dot_strides (stride l) 0 i = rank o ext i.
Proof.
  intros H Hi. mk H. destruct ext as [|a [|b [|c [|? ?]]]]; try discriminate Ho.
  - inr1 Hi x. orders Ho. inversion H; subst. unfold rank. cbn. lia.
  - inr2 Hi x y. orders Ho; inversion H; subst; unfold rank, at_; cbn; ring.
  - inr3 Hi x y z. orders Ho; inversion H; subst; unfold rank, at_; cbn; unfold at_, dim_; cbn; ring.
Qed.

Definition is_root (v : view) : Prop := match v with Root _ _ => True | _ => False end.

Lemma skip1_last D o d : order_valid D o = true -> (2 <= D)%nat -> (d < D)%nat ->
  order_valid (D - 1) (fst (sliced_order o D d)) = true /\
  (snd (sliced_order o D d) = true -> skip1 d (last (fst (sliced_order o D d)) 0%nat) = last o 0%nat).
Proof.
  intros Ho HD Hd. orders Ho; try lia;
  (destruct d as [|[|[|d]]]; [| | |lia]); try lia; cbn; (split; [reflexivity|]); intros E; try discriminate E; reflexivity.
Qed.

Lemma skip2_last o a b : order_valid 3 o = true -> (a < b < 3)%nat ->
  negb (Nat.eqb a (dim_ o 2)) = true -> negb (Nat.eqb b (dim_ o 2)) = true -> skip2 a b 0 = last o 0%nat.
Proof.
  intros Ho H. orders Ho; (destruct a as [|[|[|a]]]; [| |lia|lia]); (destruct b as [|[|[|b]]]; [lia| | |lia]); try lia; cbn; intros E1 E2; try discriminate; reflexivity.
Qed.

Lemma type_layout_sound o0 p0 v : wf v -> make_layout o0 p0 (root_ext v) = Some (root_layout v) ->
  order_valid (dim v) (fst (type_layout o0 p0 v)) = true /\
  (is_unit (snd (type_layout o0 p0 v)) = true -> vstride v (last (fst (type_layout o0 p0 v)) 0%nat) = 1) /\
  (snd (type_layout o0 p0 v) = P_any \/ snd (type_layout o0 p0 v) = P_unit \/ is_root v).
Proof.
  intros W H. revert W H. induction v as [ext l|dm v IH|D x v IH|D1 D2 x y v IH|k v IH|v IH|p v IH]; cbn [wf root_ext root_layout type_layout]; intros W H.
  - cbn [fst snd dim vstride]. split; [apply (make_layout_length _ _ _ _ H)|]. split; [|right; right; exact I].
    intros _. eapply make_layout_unit; exact H.
  - destruct W as (W & _). destruct (IH W H) as (A & B & C). cbn [fst snd dim is_unit]. split; [exact A|]. split; [discriminate|auto].
  - destruct W as (W & D2 & D3 & _). destruct (IH W H) as (A & B & C). destruct (type_layout o0 p0 v) as [o p]. cbn [fst snd] in *.
    destruct (skip1_last _ _ _ A D2 D3) as [S1 S2].
    destruct (sliced_order o (dim v) D) as [o' keep]. cbn [fst snd] in *. cbn [dim vstride]. split; [exact S1|].
    destruct (is_unit p && keep) eqn:E; cbn [is_unit]; (split; [|auto]); [|discriminate].
    apply andb_prop in E as [E1 E2]. intros _. rewrite S2 by exact E2. apply B. exact E1.
  - destruct W as (W & D3 & HD & _). destruct (IH W H) as (A & B & C). destruct (type_layout o0 p0 v) as [o p]. cbn [fst snd] in *.
    cbn [dim vstride]. rewrite D3 in *. split; [reflexivity|].
    destruct (is_unit p && negb (Nat.eqb D1 (dim_ o 2)) && negb (Nat.eqb D2 (dim_ o 2))) eqn:E; cbn [is_unit]; (split; [|auto]); [|discriminate].
    apply andb_prop in E as [E E3]. apply andb_prop in E as [E1 E2]. intros _. cbn [last]. rewrite (skip2_last _ _ _ A HD E2 E3). apply B. exact E1.
  - destruct W as (W & D2 & _). cbn [fst snd dim is_unit]. rewrite D2. split; [reflexivity|]. split; [discriminate|auto].
  - destruct W as (W & D2). destruct (IH W H) as (A & B & C). rewrite D2 in A. cbn [fst snd dim is_unit]. rewrite D2. split; [|split; [discriminate|auto]].
    destruct (type_layout o0 p0 v) as [o q]. cbn [fst snd] in *. orders A; try lia; reflexivity.
  - destruct W as (W & D3 & Hp). destruct (IH W H) as (A & B & C). rewrite D3 in A. cbn [fst snd dim is_unit]. rewrite D3. split; [|split; [discriminate|auto]].
    destruct (type_layout o0 p0 v) as [o q]. cbn [fst snd] in *. unfold permute_order. orders Hp; try lia; orders A; try lia; reflexivity.
Qed.

Lemma order_eqb_eq a b : order_eqb a b = true -> a = b.
Proof. unfold order_eqb. destruct (list_eq_dec Nat.eq_dec a b); [auto|discriminate]. Qed.
Lemma packing_eqb_eq a b : packing_eqb a b = true -> a = b.
Proof. destruct a, b; cbn; try discriminate; try reflexivity. intros H. apply Z.eqb_eq in H. congruence. Qed.

Lemma enum_divides A : is_aligned_enum A = true -> 0 < A /\ exists q, W64 = q * A.
Proof.
  unfold is_aligned_enum. intros H. apply existsb_exists in H as (x & I & E). apply Z.eqb_eq in E. subst x.
  split; [cbn [In] in I; lia|]. exists (W64 / A). 
  cbn [In] in I. repeat (destruct I as [<-|I]; [vm_compute; reflexivity|]). destruct I.
Qed.
Lemma u64_mod A z : is_aligned_enum A = true -> u64 z mod A = z mod A.
Proof.
  intros H. destruct (enum_divides A H) as (Ap & q & Q). unfold u64.
  assert (W64 <> 0) by (intros E; revert E; vm_compute; discriminate).
  rewrite (Z.mod_eq z W64) by assumption. rewrite Q at 1. replace (z - q * A * (z / W64)) with (z + - (q * (z / W64)) * A) by ring. apply Z.mod_add. lia.
Qed.
Lemma s64_small z : 0 <= z < H64 -> s64 z = z.
Proof.
  intros H. pose proof W64_H64. unfold s64, u64. rewrite Z.mod_small by lia. destruct (Z.ltb_spec z H64); lia.
Qed.

Lemma al3 A qb elem s t q q' u w e : 0 < A -> s * elem = q * A -> t * elem = q' * A ->
  e = qb * A + u * (s * elem) + w * (t * elem) -> e mod A = 0.
Proof. intros H E1 E2 ->. rewrite E1, E2. replace (qb * A + u * (q * A) + w * (q' * A)) with ((qb + u * q + w * q') * A) by ring. apply Z.mod_mul. lia. Qed.

Lemma is_compatible_sound rq ro o ext size st base elem : r_order rq = Some ro ->
  order_valid (length ext) o = true -> (forall d, (d < length ext)%nat -> size d = at_ ext d) ->
  Forall (fun n => 0 <= n < H64) ext -> fold_right Z.mul 1 ext < H64 ->
  (forall A, r_packing rq = P_aligned A -> is_aligned_enum A = true) ->
  is_compatible rq o (length ext) size st base elem = true ->
  o = ro /\ promise ro (r_packing rq) ext st base elem.
Proof.
  intros Er Ho Hs Hb Hp HA H. unfold is_compatible in H. rewrite Er in H.
  destruct (order_eqb o ro) eqn:Eo; cbn [negb] in H; [|discriminate]. apply order_eqb_eq in Eo. subst ro. split; [reflexivity|].
  destruct (r_packing rq) as [| | |A] eqn:Ep; cbn [promise].
  - exact I.
  - orders Ho; match goal with L : length ext = _ |- _ => rewrite L in H end; unfold dim_ in H; cbn [last nth] in *; apply Z.eqb_eq in H; exact H.
  - intros i Hi. destruct ext as [|a [|b [|c [|? ?]]]]; try discriminate Ho.
    + inr1 Hi x. orders Ho. cbn [length] in H. apply Z.eqb_eq in H. unfold rank. cbn. rewrite H. lia.
    + inr2 Hi x y. cbn [fold_right] in Hp. cbn [length] in Hs. 
      inversion Hb as [|? ? Ba Hb']; subst. inversion Hb' as [|? ? Bb _]; subst. clear Hb Hb'. rng Hi.
      orders Ho; cbn [length dim_ nth] in H; rewrite !Hs in H by lia; unfold at_, dim_ in H; cbn [nth] in H;
      apply andb_prop in H as [H1 H2]; apply Z.eqb_eq in H1; apply orb_prop in H2; rewrite !Z.eqb_eq in H2;
      rewrite s64_small in H2 by lia; unfold rank, at_; cbn;
      (destruct H2 as [H2|H2]; [rewrite H1, H2; ring|]); rewrite H1; 
      first [assert (x = 0) by lia | assert (y = 0) by lia]; subst; ring.
    + inr3 Hi x y z. cbn [fold_right] in Hp. cbn [length] in Hs. 
      inversion Hb as [|? ? Ba Hb']; subst. inversion Hb' as [|? ? Bb Hb'']; subst. inversion Hb'' as [|? ? Bc _]; subst. clear Hb Hb' Hb''. rng Hi.
      assert (P1 : 0 <= b * c < H64) by nia. assert (P2 : 0 <= a * c < H64) by nia. assert (P3 : 0 <= a * b < H64) by nia. 
      pose proof W64_H64 as WH. clear Hp.
      orders Ho; cbn [length dim_ nth] in H; rewrite !Hs in H by lia; unfold at_, dim_ in H; cbn [nth] in H;
      apply andb_prop in H as [H K3]; apply andb_prop in H as [K1 K2]; apply Z.eqb_eq in K1; apply orb_prop in K2; apply orb_prop in K3;
      rewrite andb_true_iff, !Z.eqb_eq in K2; rewrite !Z.eqb_eq in K3;
      rewrite s64_small in K2 by lia; rewrite u64_id in K3 by lia; rewrite s64_small in K3 by lia; unfold rank, at_; cbn;
      rewrite K1; destruct K3 as [K3|K3]; 
      repeat match goal with K : ?n = 1, B : 0 <= ?v < ?n |- _ => assert (v = 0) by (clear -K B; lia); subst v; clear B end;
      try (destruct K2 as [K2|[K2 K4]]; repeat match goal with K : ?n = 1, B : 0 <= ?v < ?n |- _ => assert (v = 0) by (clear -K B; lia); subst v; clear B end);
      try (rewrite K3); try (rewrite K2); try ring.
  - specialize (HA A eq_refl). destruct (enum_divides A HA) as (Ap & _).
    destruct (Z.eqb_spec (base mod A) 0) as [Eb|]; cbn [negb] in H; [|discriminate].
    apply Z.mod_divide in Eb; [|lia]. destruct Eb as [qb ->].
    assert (MD : forall s, (u64 (s * elem) mod A =? 0) = true -> exists q, s * elem = q * A).
    { intros s E. apply Z.eqb_eq in E. rewrite u64_mod in E by exact HA. apply Z.mod_divide in E; [|lia]. exact E. }
    destruct ext as [|a [|b [|c [|? ?]]]]; try discriminate Ho.
    + orders Ho. cbn [length] in H. apply Z.eqb_eq in H. split; [exact H|]. intros i Hi Z0. inr1 Hi x. cbn in Z0. unfold at_ in Z0. cbn in Z0. subst x. cbn.
      rewrite Z.add_0_r. apply Z.mod_mul. lia.
    + orders Ho; unfold dim_ in H; cbn [length nth] in H; apply andb_prop in H as [K1 K2]; apply Z.eqb_eq in K1; apply MD in K2 as [q Q];
      (split; [exact K1|]); intros i Hi Z0; inr2 Hi x y; unfold at_ in Z0; cbn [nth last] in Z0; subst; cbn [dot_strides].
      * apply (al3 A qb elem _ _ q q x 0 _ Ap Q Q). ring.
      * apply (al3 A qb elem _ _ q q y 0 _ Ap Q Q). ring.
    + orders Ho; unfold dim_ in H; cbn [length nth] in H; apply andb_prop in H as [H K3]; apply andb_prop in H as [K1 K2]; apply Z.eqb_eq in K1; apply MD in K2 as [q Q]; apply MD in K3 as [q' Q'];
      (split; [exact K1|]); intros i Hi Z0; inr3 Hi x y z; unfold at_ in Z0; cbn [nth last] in Z0; subst; cbn [dot_strides];
      first [apply (al3 A qb elem _ _ q q' x y _ Ap Q Q'); ring | apply (al3 A qb elem _ _ q q' y x _ Ap Q Q'); ring
            |apply (al3 A qb elem _ _ q q' x z _ Ap Q Q'); ring | apply (al3 A qb elem _ _ q q' z x _ Ap Q Q'); ring
            |apply (al3 A qb elem _ _ q q' y z _ Ap Q Q'); ring | apply (al3 A qb elem _ _ q q' z y _ Ap Q Q'); ring].
Qed.

Lemma open_promise rq o0 p0 v copy base bb elem w : wf v -> make_layout o0 p0 (root_ext v) = Some (root_layout v) ->
  Forall (fun n => 0 <= n < H64) (root_ext v) -> fold_right Z.mul 1 (sizes v) < H64 ->
  (forall A, r_packing rq = P_aligned A -> is_aligned_enum A = true /\ bb mod A = 0 /\ (p0 = P_aligned A -> base mod A = 0)) ->
  open_window rq o0 p0 v copy base elem = Some w ->
  promise (match r_order rq with Some ro => ro | None => fst (type_layout o0 p0 v) end) (r_packing rq) (sizes v) (wstride v w)
    (match w with InBlock => base + ptr v * elem | InBuffer _ => bb end) elem.
Proof.
  intros W R Hre Hp HA H. destruct (wf_dim v W) as [HD HS].
  destruct (type_layout_sound o0 p0 v W R) as (To & Tu & Tr). unfold open_window in H.
  destruct (type_layout o0 p0 v) as [o p] eqn:Et. cbn [fst snd] in *.
  assert (BUF : forall l, copy_layout rq o (sizes v) = Some l ->
     promise (match r_order rq with Some ro => ro | None => o end) (r_packing rq) (sizes v) (stride l) bb elem).
  { intros l Hl. unfold copy_layout in Hl. set (ro := match r_order rq with Some ro => ro | None => o end) in *.
    pose proof (make_layout_unit _ _ _ _ Hl) as U. destruct (r_packing rq) as [| | |A]; cbn [promise].
    - exact I.
    - exact U.
    - intros i Hi. exact (make_layout_rank _ _ _ _ Hl Hi).
    - destruct (HA A eq_refl) as (EA & Eb & _). split; [exact U|]. intros i Hi Z0.
      destruct (make_layout_aligned ro A (sizes v) l (sizes_nonneg v W) EA Hl) as [AL _].
      specialize (AL i _ Hi Z0 (make_layout_index _ _ _ _ _ Hl Hi)). destruct (enum_divides A EA) as (Ap & _).
      apply Z.mod_divide in AL; [|lia]. apply Z.mod_divide in Eb; [|lia]. destruct AL as [q Q]. destruct Eb as [q' Q']. rewrite Q, Q'.
      replace (q' * A + q * A * elem) with ((q' + q * elem) * A) by ring. apply Z.mod_mul. lia. }
  assert (CP : (l <- copy_layout rq o (sizes v) ;; Some (InBuffer l)) = Some w -> 
     promise (match r_order rq with Some ro => ro | None => o end) (r_packing rq) (sizes v) (wstride v w)
    (match w with InBlock => base + ptr v * elem | InBuffer _ => bb end) elem).
  { intros E. destruct (copy_layout rq o (sizes v)) as [l|] eqn:El; [|discriminate E]. cbn [bind] in E. injection E as <-. apply BUF. reflexivity. }
  unfold get_access in H. destruct (negb copy && maybe_compatible rq o) eqn:Em; [|exact (CP H)].
  apply andb_prop in Em as [_ Em].
  assert (Er : match r_order rq with Some ro => ro | None => o end = o).
  { unfold maybe_compatible in Em. destruct (r_order rq) as [ro|]; [apply order_eqb_eq in Em; exact Em|reflexivity]. }
  destruct (layout_compatible rq o p) eqn:El.
  - injection H as <-. rewrite Er. cbn [wstride]. unfold layout_compatible in El. apply andb_prop in El as [_ El]. apply orb_prop in El as [El|El]; [apply orb_prop in El as [El|El]|].
    + apply packing_eqb_eq in El. rewrite El. destruct p as [| | |A]; cbn [promise].
      * exact I.
      * apply Tu. reflexivity.
      * destruct Tr as [Tr|[Tr|Tr]]; try discriminate Tr. destruct v as [ext l| | | | | |]; try destruct Tr. cbn [type_layout] in Et. injection Et as -> ->.
        cbn [root_ext root_layout wf dim vsize] in *. assert (Es : sizes (Root ext l) = ext).
        { unfold sizes. cbn [dim vsize]. clear. induction ext as [|x ext IH] using rev_ind; [reflexivity|].
          rewrite app_length, Nat.add_comm. cbn [length Nat.add]. rewrite seq_S, map_app. cbn [map Nat.add]. f_equal.
          - rewrite <- IH at 2. apply map_ext_in. intros d Hd. apply in_seq in Hd. unfold at_. rewrite app_nth1 by lia. reflexivity.
          - f_equal. unfold at_. rewrite app_nth2, Nat.sub_diag by lia. reflexivity. }
        rewrite Es. intros i Hi. exact (make_layout_rank _ _ _ _ R Hi).
      * destruct (HA A El) as (EA & _ & Eb). 
        destruct Tr as [Tr|[Tr|Tr]]; try discriminate Tr. destruct v as [ext l| | | | | |]; try destruct Tr. cbn [type_layout] in Et. injection Et as -> ->.
        split; [apply Tu; reflexivity|]. specialize (Eb eq_refl). cbn [ptr vstride root_ext root_layout wf] in *.
        intros i Hi Z0. assert (Hi' : in_range ext i).
        { assert (Es : sizes (Root ext l) = ext).
          { unfold sizes. cbn [dim vsize]. clear. induction ext as [|x ext IH] using rev_ind; [reflexivity|].
          rewrite app_length, Nat.add_comm. cbn [length Nat.add]. rewrite seq_S, map_app. cbn [map Nat.add]. f_equal.
          - rewrite <- IH at 2. apply map_ext_in. intros d Hd. apply in_seq in Hd. unfold at_. rewrite app_nth1 by lia. reflexivity.
          - f_equal. unfold at_. rewrite app_nth2, Nat.sub_diag by lia. reflexivity. }
          rewrite <- Es. exact Hi. }
        destruct (make_layout_aligned o A ext l) as [AL _]; [|exact EA|exact R|].
        { eapply Forall_impl; [|exact Hre]. cbn. intros; lia. }
        specialize (AL i _ Hi' Z0 (make_layout_index _ _ _ _ _ R Hi')). destruct (enum_divides A EA) as (Ap & _).
        apply Z.mod_divide in AL; [|lia]. apply Z.mod_divide in Eb; [|lia]. destruct AL as [q Q]. destruct Eb as [q' Q']. change (wstride (Root ext l) InBlock) with (stride l). rewrite Q, Q'.
        replace (q' * A + 0 * elem + q * A * elem) with ((q' + q * elem) * A) by ring. apply Z.mod_mul. lia.
    + apply packing_eqb_eq in El. rewrite El. exact I.
    + apply andb_prop in El as [El Eu]. apply packing_eqb_eq in El. rewrite El. cbn [promise]. apply Tu. exact Eu.
  - destruct (is_compatible rq o (dim v) (vsize v) (vstride v) (base + ptr v * elem) elem) eqn:Ec; [|exact (CP H)].
    injection H as <-. cbn [wstride]. rewrite Er. destruct (r_order rq) as [ro|] eqn:Eo; [|unfold is_compatible in Ec; rewrite Eo in Ec; discriminate Ec].
    rewrite <- (len_sizes v) in Ec. destruct (is_compatible_sound rq ro o (sizes v) (vsize v) (vstride v) (base + ptr v * elem) elem) as [-> Pr]; auto.
    + rewrite len_sizes. exact To.
    + intros d Hd. rewrite len_sizes in Hd. unfold at_, sizes. rewrite nth_indep with (d' := vsize v 0%nat) by (rewrite map_length, seq_length; exact Hd).
      rewrite map_nth, seq_nth by exact Hd. reflexivity.
    + unfold sizes. apply Forall_forall. intros n Hn. apply in_map_iff in Hn as (d & <- & Hd). apply in_seq in Hd. apply HS. lia.
    + intros A EA. apply HA. exact EA.
Qed.

Lemma reads_some {V} v (m : mem V) (l : list (op V)) : wf v -> allocated m (total_size (root_layout v)) -> Forall (op_in (sizes v)) l ->
  forall f : @elems V, (forall i, in_range (sizes v) i -> exists x, f i = Some x) ->
  Forall (fun e => exists x, e = Some x) (reads f l) /\ (forall i, in_range (sizes v) i -> exists x, after f l i = Some x).
Proof.
  intros W A O. induction O as [|o l Ho O IH]; intros f F; [split; [constructor|exact F]|].
  destruct o as [i|i x|]; cbn [reads after].
  - destruct (IH f F) as [P Q]. split; [constructor; [apply F; exact Ho|exact P]|exact Q].
  - apply IH. intros j Hj. unfold set. destruct (list_eq_dec Z.eq_dec j i); [eauto|auto].
  - apply IH. exact F.
Qed.
Lemma agrees_det {V} (es : list (option V)) a b : Forall (fun e => exists x, e = Some x) es ->
  Forall2 agrees es a -> Forall2 agrees es b -> a = b.
Proof.
  intros S A. revert b. induction A as [|e r es a Er A IH]; intros b B; inversion B as [|? r' ? b' Er' B']; subst; [reflexivity|].
  inversion S as [|? ? [x ->] S']; subst. f_equal; [|auto]. rewrite (Er x eq_refl), (Er' x eq_refl). reflexivity.
Qed.
Lemma two_windows {V} c c' v w w' (m b b' : mem V) l : wf v -> no_repeat v -> window_ok v w b -> window_ok v w' b' ->
  allocated m (total_size (root_layout v)) -> Forall (op_in (sizes v)) l ->
  exists n, forall fuel, (n <= fuel)%nat -> exists m1 m2 rs,
    session fuel {| p_in := true; p_out := true |} c v w m b l = Some (m1, rs) /\
    session fuel {| p_in := true; p_out := true |} c' v w' m b' l = Some (m2, rs) /\
    (forall i, in_range (sizes v) i -> get v m1 i = get v m2 i) /\ rest_same v m m1 /\ rest_same v m m2.
Proof.
  intros W NR O1 O2 A O.
  destruct (session_lemma {| p_in := true; p_out := true |} c v w m b l W NR O1 A O) as (n1 & S1).
  destruct (session_lemma {| p_in := true; p_out := true |} c' v w' m b' l W NR O2 A O) as (n2 & S2).
  exists (Nat.max n1 n2). intros fuel Hf. destruct (S1 fuel ltac:(lia)) as (m1 & r1 & E1 & R1 & K1 & T1 & _).
  destruct (S2 fuel ltac:(lia)) as (m2 & r2 & E2 & R2 & K2 & T2 & _). cbn [p_in p_out] in *.
  destruct (reads_some v m l W A O (get v m)) as [P Q].
  { intros i Hi. apply get_def; assumption. }
  assert (r2 = r1) as -> by (eapply agrees_det; eassumption).
  exists m1, m2, r1. repeat split; auto. intros i Hi. destruct (Q i Hi) as (x & Ex). rewrite (K1 eq_refl i x Hi Ex), (K2 eq_refl i x Hi Ex). reflexivity.
Qed.
