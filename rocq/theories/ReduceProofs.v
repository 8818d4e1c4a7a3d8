(** Proofs about reductions. *)
From Coq Require Import ZArith List Lia Bool Arith Permutation Sorted.
From Verif Require Import Base Reduce.
Import ListNotations.
Local Open Scope nat_scope.

(** ** Index lists *)
Lemma in_all ext i : In i (all_indices ext) <-> in_ext ext i.
Proof.
  revert i. induction ext as [|n ext IH]; intros i; cbn [all_indices fold_right].
  - split; [intros [<-|[]]; constructor|]. intros H. inversion H. left. reflexivity.
  - rewrite in_flat_map. split.
    + intros (x & Hx & Hi). apply in_seq in Hx. apply in_map_iff in Hi as (j & <- & Hj). constructor; [lia|]. apply IH. exact Hj.
    + intros H. inversion H as [|x ? j ? Hx Hj]; subst. exists x. split; [apply in_seq; lia|]. apply in_map, IH. exact Hj.
Qed.

Fixpoint lexlt (a b : list nat) : Prop :=
  match a, b with x :: a', y :: b' => x < y \/ (x = y /\ lexlt a' b') | _, _ => False end.

Lemma ss_app {A} (R : A -> A -> Prop) l1 l2 : StronglySorted R l1 -> StronglySorted R l2 ->
  (forall x y, In x l1 -> In y l2 -> R x y) -> StronglySorted R (l1 ++ l2).
Proof.
  intros S1 S2 H. induction S1 as [|x l S IH F]; cbn [app]; [exact S2|]. constructor.
  - apply IH. intros a b Ha Hb. apply H; [right; exact Ha|exact Hb].
  - apply Forall_app. split; [exact F|]. apply Forall_forall. intros y Hy. apply H; [left; reflexivity|exact Hy].
Qed.
Lemma ss_map {A B} (R : A -> A -> Prop) (Q : B -> B -> Prop) f l : StronglySorted R l ->
  (forall x y, In x l -> In y l -> R x y -> Q (f x) (f y)) -> StronglySorted Q (map f l).
Proof.
  intros S H. induction S as [|x l S IH F]; cbn [map]; constructor.
  - apply IH. intros a b Ha Hb. apply H; right; assumption.
  - apply Forall_forall. intros y Hy. apply in_map_iff in Hy as (z & <- & Hz). apply H; [left; reflexivity|right; exact Hz|].
    rewrite Forall_forall in F. apply F. exact Hz.
Qed.
Lemma ss_nth {A} (R : A -> A -> Prop) l : StronglySorted R l -> forall p q x y, p < q -> nth_error l p = Some x -> nth_error l q = Some y -> R x y.
Proof.
  intros S. induction S as [|z l S IH F]; intros p q x y H P Q; [destruct p; discriminate|]. destruct q as [|q]; [lia|]. destruct p as [|p]; cbn in P, Q.
  - injection P as <-. rewrite Forall_forall in F. apply F. eapply nth_error_In; exact Q.
  - eapply (IH p q); [lia|exact P|exact Q].
Qed.
Lemma lex_sorted ext : StronglySorted lexlt (all_indices ext).
Proof.
  induction ext as [|n ext IH]; cbn [all_indices fold_right]; [constructor; constructor|].
  fold (all_indices ext). generalize 0. induction n as [|n IHn]; intros s; cbn [seq flat_map]; [constructor|]. apply ss_app.
  - eapply ss_map; [exact IH|]. intros x y _ _ H. cbn [lexlt]. auto.
  - apply IHn.
  - intros x y Hx Hy. apply in_map_iff in Hx as (a & <- & _). apply in_flat_map in Hy as (t & Ht & Hy). apply in_map_iff in Hy as (b & <- & _).
    apply in_seq in Ht. cbn [lexlt]. lia.
Qed.
Lemma lex_irrefl a : ~ lexlt a a.
Proof. induction a as [|x a IH]; cbn [lexlt]; [auto|]. intros [H|[_ H]]; [lia|auto]. Qed.
Lemma ss_nodup {A} (R : A -> A -> Prop) l : (forall x, ~ R x x) -> StronglySorted R l -> NoDup l.
Proof.
  intros I S. induction S as [|x l S IH F]; constructor; [|exact IH]. intros H. rewrite Forall_forall in F. exact (I x (F x H)).
Qed.

(** The order in which the loops visit an extent. *)
Definition place (o xs : list nat) : list nat :=
  fold_left (fun l p => lset l (fst p) (snd p)) (combine o xs) (repeat 0 (length o)).
Definition ixs (o ext : list nat) : list (list nat) := map (place o) (all_indices (map (fun d => nth d ext 0) o)).

Ltac ocases H := match type of H with order_of _ ?ext => 
  destruct ext as [|n0 [|n1 [|n2 [|? ?]]]]; cbn [order_of] in H; try contradiction;
  repeat match type of H with _ \/ _ => destruct H as [H|H] end; subst end.
Ltac f2inv := repeat match goal with
  | H : Forall2 _ _ (_ :: _) |- _ => inversion H; clear H; subst
  | H : Forall2 _ _ [] |- _ => inversion H; clear H; subst
  end.

Lemma ixs_in o ext i : order_of o ext -> In i (ixs o ext) <-> in_ext ext i.
Proof.
  intros H. unfold ixs. rewrite in_map_iff. split.
  - intros (xs & <- & Hx). apply in_all in Hx. unfold in_ext in *. ocases H; cbn [map nth] in Hx; f2inv; repeat constructor; assumption.
  - intros Hi. unfold in_ext in *. ocases H; f2inv.
    all: match goal with
    | |- exists x, place [0] _ = [?a] /\ _ => exists [a]
    | |- exists x, place [0;1] _ = [?a;?b] /\ _ => exists [a;b]
    | |- exists x, place [1;0] _ = [?a;?b] /\ _ => exists [b;a]
    | |- exists x, place [0;1;2] _ = [?a;?b;?c] /\ _ => exists [a;b;c]
    | |- exists x, place [0;2;1] _ = [?a;?b;?c] /\ _ => exists [a;c;b]
    | |- exists x, place [1;0;2] _ = [?a;?b;?c] /\ _ => exists [b;a;c]
    | |- exists x, place [1;2;0] _ = [?a;?b;?c] /\ _ => exists [b;c;a]
    | |- exists x, place [2;0;1] _ = [?a;?b;?c] /\ _ => exists [c;a;b]
    | |- exists x, place [2;1;0] _ = [?a;?b;?c] /\ _ => exists [c;b;a]
    end; (split; [reflexivity|]); apply in_all; repeat constructor; cbn [nth]; assumption.
Qed.

Lemma before_lex o ext a b : order_of o ext -> length a = length o -> length b = length o -> lexlt a b -> before o (place o a) (place o b).
Proof.
  intros H La Lb X.
  ocases H; cbn [length] in La, Lb;
  repeat (destruct a as [|? a]; try discriminate La); repeat (destruct b as [|? b]; try discriminate Lb); cbn [lexlt] in X;
  repeat match goal with X : _ \/ _ |- _ => destruct X as [X|X] | X : _ /\ _ |- _ => destruct X as [? X] | X : False |- _ => destruct X end; subst;
  first [ exists 0; cbn; split; [lia|]; split; [lia|intros q Hq; lia]
        | exists 1; cbn; split; [lia|]; split; [lia|intros [|q] Hq; [reflexivity|lia]]
        | exists 2; cbn; split; [lia|]; split; [lia|intros [|[|q]] Hq; [reflexivity|reflexivity|lia]] ].
Qed.
Lemma all_len ext i : In i (all_indices ext) -> length i = length ext.
Proof. intros H. apply in_all in H. induction H; cbn; auto. Qed.
Lemma ixs_sorted o ext : order_of o ext -> StronglySorted (before o) (ixs o ext).
Proof.
  intros H. unfold ixs. eapply ss_map; [apply lex_sorted|]. intros x y Hx Hy X. apply all_len in Hx, Hy. rewrite map_length in Hx, Hy.
  eapply before_lex; eassumption.
Qed.
Lemma before_asym o i j : before o i j -> before o j i -> False.
Proof.
  intros (p & _ & L & E) (q & _ & L' & E'). destruct (Nat.lt_trichotomy p q) as [H|[->|H]].
  - specialize (E' p H). lia.
  - lia.
  - specialize (E q H). lia.
Qed.
Lemma before_irrefl o i : ~ before o i i.
Proof. intros H. exact (before_asym o i i H H). Qed.
Lemma ixs_perm o ext : order_of o ext -> Permutation (ixs o ext) (all_indices ext).
Proof.
  intros H. apply NoDup_Permutation.
  - eapply ss_nodup; [apply before_irrefl|]. apply ixs_sorted. exact H.
  - eapply ss_nodup; [apply lex_irrefl|]. apply lex_sorted.
  - intros i. rewrite ixs_in by exact H. symmetry. apply in_all.
Qed.

(** ** Value reductions *)
Lemma fold_flat {A B S} (f : S -> B -> S) (g : A -> list B) l : forall s, fold_left f (flat_map g l) s = fold_left (fun s x => fold_left f (g x) s) l s.
Proof. induction l as [|x l IH]; intros s; cbn; [reflexivity|]. rewrite fold_left_app. apply IH. Qed.
Lemma fold_map {A B S} (f : S -> B -> S) (g : A -> B) l : forall s, fold_left f (map g l) s = fold_left (fun s x => f s (g x)) l s.
Proof. induction l as [|x l IH]; intros s; cbn; [reflexivity|]. apply IH. Qed.
Lemma fold_ext {A S} (f g : S -> A -> S) l : (forall s x, In x l -> f s x = g s x) -> forall s, fold_left f l s = fold_left g l s.
Proof. intros H. induction l as [|x l IH]; intros s; cbn; [reflexivity|]. rewrite H by (left; reflexivity). apply IH. intros; apply H; right; assumption. Qed.
Lemma fold_perm {A S} (f : S -> A -> S) l l' : (forall s x y, f (f s x) y = f (f s y) x) -> Permutation l l' -> forall s, fold_left f l s = fold_left f l' s.
Proof.
  intros C P. induction P as [|x l l' P IH|x y l|l1 l2 l3 P1 IH1 P2 IH2]; intros s; cbn; auto; [rewrite C; reflexivity|]. rewrite IH1. apply IH2.
Qed.
Lemma loop_fold {S} (f : nat -> S -> option S) (g : S -> nat -> S) n : forall i s, (forall j t, i <= j < i + n -> f j t = Some (g t j)) ->
  loop f i n s = Some (fold_left g (seq i n) s).
Proof.
  induction n as [|n IH]; intros i s H; cbn [loop seq fold_left]; [reflexivity|]. rewrite H by lia. cbn [bind].
  replace (i + 1) with (Datatypes.S i) by lia. apply IH. intros j t Hj. apply H. lia.
Qed.

Section Value.
Context {A S R : Type} (F : functor A S R) (AB : forall s x, done F s = true -> update F s x = s).
Lemma absorb (w : nat -> A) l s : done F s = true -> fold_left (fun t j => update F t (w j)) l s = s.
Proof using AB. intros H. induction l as [|x l IH]; cbn; [reflexivity|]. rewrite AB by exact H. exact IH. Qed.
Lemma brk_fold get w n : forall i s, (forall j, i <= j < i + n -> get j = Some (w j)) ->
  brk_loop F get i n s = Some (fold_left (fun t j => update F t (w j)) (seq i n) s).
Proof using AB.
  induction n as [|n IH]; intros i s H; cbn [brk_loop seq fold_left]; [reflexivity|]. rewrite H by lia. cbn [bind].
  destruct (done F (update F s (w i))) eqn:D.
  - rewrite absorb by exact D. reflexivity.
  - replace (i + 1) with (Datatypes.S i) by lia. apply IH. intros j Hj. apply H. lia.
Qed.

Lemma reduce_fold o get ext v : order_of o ext -> holds get ext v ->
  reduce F o get ext = Some (value F (fold_left (fun s i => update F s (v i)) (ixs o ext) (initial F)) (size ext)).
Proof using AB.
  intros H G. unfold ixs. rewrite fold_map. destruct ext as [|n0 [|n1 [|n2 [|? ?]]]]; cbn [order_of] in H; try contradiction.
  - subst o. cbn [reduce]. unfold reduce1. rewrite (brk_fold _ (fun x => v [x])); [|intros j Hj; apply G; repeat constructor; lia].
    cbn [bind map all_indices fold_right nth size]. rewrite fold_flat, Nat.mul_1_r. cbn [map fold_left]. reflexivity.
  - assert (X : forall d1 d2, (d1 = 0 /\ d2 = 1) \/ (d1 = 1 /\ d2 = 0) -> 
       reduce2 F d1 d2 get [n0; n1] = Some (value F (fold_left (fun s i => update F s (v (place [d1;d2] i))) (all_indices (map (fun d => nth d [n0;n1] 0) [d1;d2])) (initial F)) (size [n0;n1]))).
    { intros d1 d2 C. unfold reduce2.
      rewrite loop_fold with (g := fun s x => fold_left (fun t y => update F t (v (place [d1;d2] [x;y]))) (seq 0 (nth d2 [n0;n1] 0)) s).
      - cbn [bind map all_indices fold_right]. rewrite fold_flat. do 2 f_equal.
        + apply fold_ext. intros s x _. rewrite fold_map, fold_flat. apply fold_ext. intros t y _. reflexivity.
        + cbn. lia.
      - intros x t Hx. rewrite (brk_fold _ (fun y => v (place [d1;d2] [x;y]))); [reflexivity|]. intros y Hy.
        change (lset (lset [0; 0] d1 x) d2 y) with (place [d1;d2] [x;y]). apply G.
        destruct C as [ [-> ->] | [-> ->] ]; cbn in Hx, Hy |- *; repeat constructor; lia. }
    destruct H as [-> | ->]; cbn [reduce]; apply X; auto.
  - assert (X : forall d1 d2 d3, order_of [d1;d2;d3] [n0;n1;n2] -> 
       reduce3 F d1 d2 d3 get [n0; n1; n2] = Some (value F (fold_left (fun s i => update F s (v (place [d1;d2;d3] i))) (all_indices (map (fun d => nth d [n0;n1;n2] 0) [d1;d2;d3])) (initial F)) (size [n0;n1;n2]))).
    { intros d1 d2 d3 C. unfold reduce3.
      rewrite loop_fold with (g := fun s x => fold_left (fun s y => fold_left (fun t z => update F t (v (place [d1;d2;d3] [x;y;z]))) (seq 0 (nth d3 [n0;n1;n2] 0)) s) (seq 0 (nth d2 [n0;n1;n2] 0)) s).
      - cbn [bind map all_indices fold_right]. rewrite fold_flat. do 2 f_equal.
        + apply fold_ext. intros s x _. rewrite fold_map, fold_flat. apply fold_ext. intros s' y _. rewrite fold_map, fold_flat. apply fold_ext. intros t z _. reflexivity.
        + cbn. lia.
      - intros x t Hx. rewrite loop_fold with (g := fun s y => fold_left (fun t z => update F t (v (place [d1;d2;d3] [x;y;z]))) (seq 0 (nth d3 [n0;n1;n2] 0)) s); [reflexivity|].
        intros y t' Hy. rewrite (brk_fold _ (fun z => v (place [d1;d2;d3] [x;y;z]))); [reflexivity|]. intros z Hz.
        change (lset (lset (lset [0; 0; 0] d1 x) d2 y) d3 z) with (place [d1;d2;d3] [x;y;z]). apply G.
        cbn [order_of] in C. repeat match type of C with _ \/ _ => destruct C as [C|C] end; injection C as -> -> ->; cbn in Hx, Hy, Hz |- *; repeat constructor; lia. }
    repeat match type of H with _ \/ _ => destruct H as [H|H] end; subst; cbn [reduce]; apply X; cbn [order_of]; auto 10.
Qed.
End Value.

(** Independence of the dimension order. *)
Lemma reduce_all {A S R} (F : functor A S R) o get ext v : (forall s x, done F s = true -> update F s x = s) ->
  (forall s x y, update F (update F s x) y = update F (update F s y) x) -> order_of o ext -> holds get ext v ->
  reduce F o get ext = Some (value F (fold_left (fun s i => update F s (v i)) (all_indices ext) (initial F)) (size ext)).
Proof.
  intros AB C H G. rewrite (reduce_fold F AB o get ext v H G). do 2 f_equal. apply fold_perm; [intros; apply C|]. apply ixs_perm. exact H.
Qed.

Section Sums.
Context (K : CRing).
Add Ring Kring : (r_th K).
Local Open Scope cr_scope.
Lemma fold_sum_over ext : forall (f : list nat -> K) s, fold_left (fun t i => t + f i) (all_indices ext) s = s + sum_over ext f.
Proof.
  induction ext as [|n ext IH]; intros f s; cbn [all_indices fold_right sum_over]; [reflexivity|]. fold (all_indices ext).
  rewrite fold_flat. rewrite (fold_ext _ (fun t x => t + sum_over ext (fun i => f (x :: i)))).
  - rewrite fold_sum. reflexivity.
  - intros t x _. rewrite fold_map. apply IH.
Qed.

Lemma sum_lemma {A R} (F : functor A K R) (g : A -> K) o get ext v : (forall s, done F s = false) -> (forall s x, update F s x = s + g x) -> initial F = r0 ->
  order_of o ext -> holds get ext v -> reduce F o get ext = Some (value F (sum_over ext (fun i => g (v i))) (size ext)).
Proof.
  intros D U I0 H G. rewrite (reduce_all F o get ext v); auto.
  - rewrite (fold_ext _ (fun t i => t + g (v i))) by (intros; apply U). rewrite fold_sum_over, I0. do 2 f_equal. ring.
  - intros s x. rewrite D. discriminate.
  - intros s x y. rewrite !U. ring.
Qed.

(** Long sums. *)
Definition sqq (sq : bool) (x : K) : K := if sq then x * x else x.
Lemma partial_ok sq m data off len w : (forall i, (i < len)%nat -> m (data + Z.of_nat (off + i))%Z = Some (w (off + i)%nat)) ->
  partial_sum sq m data off len = Some (sum (fun i => sqq sq (w (off + i)%nat)) len).
Proof.
  intros H. unfold partial_sum. rewrite loop_fold with (g := fun s i => s + sqq sq (w (off + i)%nat)).
  - rewrite fold_sum. f_equal. cbn [Nat.add]. ring_simplify. reflexivity.
  - intros i t Hi. unfold mload. rewrite H by lia. cbn [bind]. destruct sq; reflexivity.
Qed.
Lemma sub_eq n : (max_length <= n)%nat -> exists b, subblocks n = Datatypes.S b /\ (b * max_length + last_size n = n)%nat.
Proof.
  intros H. unfold subblocks, last_size. assert (M : max_length <> 0%nat) by discriminate.
  assert (Q : (n / max_length <> 0)%nat) by (intros E; apply Nat.div_small_iff in E; lia).
  pose proof (Nat.div_mod n max_length M) as D. generalize dependent (n / max_length)%nat. intros q Q D.
  generalize dependent max_length. intros M H M0. destruct (Nat.eqb_spec (n mod M) 0) as [E|E]; intros D.
  - exists (q - 1)%nat. split; [lia|]. destruct q as [|q]; [lia|]. cbn [Nat.sub]. rewrite Nat.sub_0_r. lia.
  - exists q. split; lia.
Qed.
Lemma long_ok sq m data n w : (max_length <= n)%nat -> (forall i, (i < n)%nat -> m (data + Z.of_nat i)%Z = Some (w i)) ->
  long_sum sq m data n = Some (sum (fun i => sqq sq (w i)) n).
Proof.
  intros Hn H. destruct (sub_eq n Hn) as (b & Eb & En). unfold long_sum. rewrite Eb. replace (Datatypes.S b - 1)%nat with b by lia.
  destruct (loop_inv (fun b s => p <- partial_sum sq m data (b * max_length) max_length ;; Some (s + p))
     (fun k s => s = sum (fun i => sqq sq (w i)) (k * max_length)) b 0 r0) as (s & Es & Ps).
  - reflexivity.
  - intros k t Hk Ht. assert (L : (k * max_length + max_length <= b * max_length)%nat).
    { replace (k * max_length + max_length)%nat with ((k + 1) * max_length)%nat by lia. apply Nat.mul_le_mono_r. lia. }
    rewrite (partial_ok sq m data _ _ w) by (intros i Hi; apply H; lia). cbn [bind]. eexists. split; [reflexivity|].
    replace ((k + 1) * max_length)%nat with (k * max_length + max_length)%nat by lia. rewrite sum_app, Ht. reflexivity.
  - rewrite Es. cbn [bind]. rewrite (partial_ok sq m data _ _ w) by (intros i Hi; apply H; lia). cbn [bind]. rewrite Ps, Nat.add_0_l.
    rewrite <- sum_app, En. reflexivity.
Qed.
Lemma float_ok {R} (F : functor K K R) (sq mean : bool) (extract : K -> R) (divn : R -> nat -> R) (m : mem K) (data : Z) (n : nat) (w : nat -> K) :
  (forall s, done F s = false) -> (forall s x, update F s x = s + sqq sq x) -> initial F = r0 ->
  (forall s, value F s n = if mean then divn (extract s) n else extract s) ->
  (forall i, (i < n)%nat -> m (data + Z.of_nat i)%Z = Some (w i)) ->
  reduce1_float F sq mean extract divn m data 1 n = Some (value F (sum (fun i => sqq sq (w i)) n) n).
Proof.
  intros D U I0 V H. unfold reduce1_float. destruct (Nat.ltb_spec n max_length) as [L|L].
  - change (reduce1 F ?g n) with (reduce F [0%nat] g [n]). rewrite (sum_lemma F (sqq sq) [0%nat] _ [n] (fun i => w (hd 0%nat i))); auto.
    + cbn [sum_over hd size fold_right]. rewrite Nat.mul_1_r. reflexivity.
    + reflexivity.
    + intros i Hi. inversion Hi as [|x ? l ? Hx Hl]; subst. inversion Hl; subst. cbn [hd]. unfold mload. rewrite Z.mul_1_r. apply H. exact Hx.
  - rewrite (long_ok sq m data n w L H). cbn [bind]. rewrite V. reflexivity.
Qed.
End Sums.

Lemma count_lemma o get ext v : order_of o ext -> holds get ext v -> reduce Sum_bool o get ext = Some (count_true ext v).
Proof.
  intros H G. rewrite (reduce_all Sum_bool o get ext v); auto; [|intros; discriminate|intros; cbn; lia].
  cbn [value Sum_bool initial update]. f_equal. unfold count_true. generalize (all_indices ext). intros l. 
  assert (X : forall s, fold_left (fun s i => s + (if v i then 1 else 0)) l s = s + length (filter v l)).
  { induction l as [|i l IH]; intros s; cbn; [lia|]. rewrite IH. destruct (v i); cbn; lia. }
  rewrite X. reflexivity.
Qed.

(** ** Logical reductions *)
Lemma land_fold l (v : list nat -> Z) b : forall s, Z.testbit (fold_left (fun s i => Z.land s (v i)) l s) b = Z.testbit s b && forallb (fun i => Z.testbit (v i) b) l.
Proof. induction l as [|i l IH]; intros s; cbn; [rewrite andb_true_r; reflexivity|]. rewrite IH, Z.land_spec, andb_assoc. reflexivity. Qed.
Lemma lor_fold l (v : list nat -> Z) b : forall s, Z.testbit (fold_left (fun s i => Z.lor s (v i)) l s) b = Z.testbit s b || existsb (fun i => Z.testbit (v i) b) l.
Proof. induction l as [|i l IH]; intros s; cbn; [rewrite orb_false_r; reflexivity|]. rewrite IH, Z.lor_spec, orb_assoc. reflexivity. Qed.

Lemma all_true_lemma ones o get ext v : order_of o ext -> holds get ext v ->
  exists r, reduce (All_true ones) o get ext = Some r /\
    forall b, Z.testbit r b = true <-> Z.testbit ones b = true /\ forall i, in_ext ext i -> Z.testbit (v i) b = true.
Proof.
  intros H G. eexists. split.
  - apply (reduce_all (All_true ones) o get ext v); auto; cbn.
    + intros s x E. apply Z.eqb_eq in E. subst s. apply Z.land_0_l.
    + intros s x y. rewrite <- !Z.land_assoc, (Z.land_comm x y). reflexivity.
  - intros b. cbn [value All_true update initial]. rewrite land_fold, andb_true_iff, forallb_forall. split; intros [X Y]; (split; [exact X|]); intros i Hi; apply Y; [apply in_all|apply in_all in Hi]; exact Hi.
Qed.
(** [cmp] is -1, or all the bits the values have. *)
Lemma any_true_lemma cmp o get ext v : order_of o ext -> holds get ext v ->
  (forall i, in_ext ext i -> Z.lor cmp (v i) = cmp) ->
  exists r, reduce (Any_true cmp) o get ext = Some r /\
    forall b, Z.testbit r b = true <-> exists i, in_ext ext i /\ Z.testbit (v i) b = true.
Proof.
  intros H G C.
  eexists. split.
  - (* the absorbing law holds for the values that occur *)
    assert (X : forall (l : list nat) s (w : nat -> Z), (forall j, In j l -> Z.lor cmp (w j) = cmp) -> s = cmp -> fold_left (fun t j => Z.lor t (w j)) l s = s) by
      (intros l s w; revert s; induction l as [|j l IH]; intros s W E; cbn; [reflexivity|]; rewrite E, W by (left; reflexivity); apply IH; [intros; apply W; right; assumption|reflexivity]).
    assert (B : forall get w n i s, (forall j, i <= j < i + n -> get j = Some (w j) /\ Z.lor cmp (w j) = cmp) ->
      brk_loop (Any_true cmp) get i n s = Some (fold_left (fun t j => Z.lor t (w j)) (seq i n) s)).
    { intros get' w n. induction n as [|n IH]; intros i s W; cbn [brk_loop seq fold_left]; [reflexivity|]. destruct (W i ltac:(lia)) as [-> Wi]. cbn [bind update done Any_true].
      destruct (Z.eqb_spec (Z.lor s (w i)) cmp) as [E|].
      - rewrite X; auto. intros j Hj. apply in_seq in Hj. apply W. lia.
      - replace (i + 1) with (S i) by lia. apply IH. intros j Hj. apply W. lia. }
    assert (P : fold_left (fun t i => Z.lor t (v i)) (ixs o ext) 0%Z = fold_left (fun t i => Z.lor t (v i)) (all_indices ext) 0%Z).
    { apply fold_perm; [intros s x y; rewrite <- !Z.lor_assoc, (Z.lor_comm (v x)); reflexivity|apply ixs_perm; exact H]. }
    transitivity (Some (fold_left (fun t i => Z.lor t (v i)) (ixs o ext) 0%Z)); [|rewrite P; reflexivity].
    unfold ixs. rewrite fold_map. destruct ext as [|n0 [|n1 [|n2 [|? ?]]]]; cbn [order_of] in H; try contradiction.
    + subst o. cbn [reduce]. unfold reduce1. rewrite (B _ (fun x => v [x])).
      * cbn [bind map all_indices fold_right nth value Any_true initial]. rewrite fold_flat. cbn [map fold_left]. reflexivity.
      * intros j Hj. assert (I1 : in_ext [n0] [j]) by (repeat constructor; lia). split; [apply G|apply C]; exact I1.
    + assert (Y : forall d1 d2, (d1 = 0 /\ d2 = 1) \/ (d1 = 1 /\ d2 = 0) -> 
       reduce2 (Any_true cmp) d1 d2 get [n0; n1] = Some (fold_left (fun s i => Z.lor s (v (place [d1;d2] i))) (all_indices (map (fun d => nth d [n0;n1] 0) [d1;d2])) 0%Z)).
      { intros d1 d2 D. unfold reduce2.
        rewrite loop_fold with (g := fun s x => fold_left (fun t y => Z.lor t (v (place [d1;d2] [x;y]))) (seq 0 (nth d2 [n0;n1] 0)) s).
        - cbn [bind map all_indices fold_right value Any_true initial]. rewrite fold_flat. f_equal. apply fold_ext. intros s x _. rewrite fold_map, fold_flat. apply fold_ext. intros t y _. reflexivity.
        - intros x t Hx. rewrite (B _ (fun y => v (place [d1;d2] [x;y]))); [reflexivity|]. intros y Hy.
          change (lset (lset [0; 0] d1 x) d2 y) with (place [d1;d2] [x;y]). 
          assert (I1 : in_ext [n0;n1] (place [d1;d2] [x;y])) by (destruct D as [ [-> ->] | [-> ->] ]; cbn in Hx, Hy |- *; repeat constructor; lia). split; [apply G|apply C]; exact I1. }
      destruct H as [-> | ->]; cbn [reduce]; apply Y; auto.
    + assert (Y : forall d1 d2 d3, order_of [d1;d2;d3] [n0;n1;n2] -> 
       reduce3 (Any_true cmp) d1 d2 d3 get [n0; n1; n2] = Some (fold_left (fun s i => Z.lor s (v (place [d1;d2;d3] i))) (all_indices (map (fun d => nth d [n0;n1;n2] 0) [d1;d2;d3])) 0%Z)).
      { intros d1 d2 d3 D. unfold reduce3.
        rewrite loop_fold with (g := fun s x => fold_left (fun s y => fold_left (fun t z => Z.lor t (v (place [d1;d2;d3] [x;y;z]))) (seq 0 (nth d3 [n0;n1;n2] 0)) s) (seq 0 (nth d2 [n0;n1;n2] 0)) s).
        - cbn [bind map all_indices fold_right value Any_true initial]. rewrite fold_flat. f_equal. apply fold_ext. intros s x _. rewrite fold_map, fold_flat. apply fold_ext. intros s' y _. rewrite fold_map, fold_flat. apply fold_ext. intros t z _. reflexivity.
        - intros x t Hx. rewrite loop_fold with (g := fun s y => fold_left (fun t z => Z.lor t (v (place [d1;d2;d3] [x;y;z]))) (seq 0 (nth d3 [n0;n1;n2] 0)) s); [reflexivity|].
          intros y t' Hy. rewrite (B _ (fun z => v (place [d1;d2;d3] [x;y;z]))); [reflexivity|]. intros z Hz.
          change (lset (lset (lset [0; 0; 0] d1 x) d2 y) d3 z) with (place [d1;d2;d3] [x;y;z]).
          assert (I1 : in_ext [n0;n1;n2] (place [d1;d2;d3] [x;y;z])) by (cbn [order_of] in D; repeat match type of D with _ \/ _ => destruct D as [D|D] end; injection D as -> -> ->; cbn in Hx, Hy, Hz |- *; repeat constructor; lia).
          split; [apply G|apply C]; exact I1. }
      repeat match type of H with _ \/ _ => destruct H as [H|H] end; subst; cbn [reduce]; apply Y; cbn [order_of]; auto 10.
  - intros b. rewrite lor_fold, Z.bits_0. cbn [orb]. rewrite existsb_exists. split; intros (i & Hi & T); exists i; (split; [apply in_all|]; auto); apply in_all; exact Hi.
Qed.
Lemma all_bool_lemma o get ext v : order_of o ext -> holds get ext v ->
  exists r, reduce All_true_bool o get ext = Some r /\ (r = true <-> forall i, in_ext ext i -> v i = true).
Proof.
  intros H G. eexists. split.
  - apply (reduce_all All_true_bool o get ext v); auto; cbn.
    + intros [|] x E; [discriminate|reflexivity].
    + intros s x y. rewrite <- !andb_assoc, (andb_comm x y). reflexivity.
  - cbn [value All_true_bool update initial].
    assert (X : forall l s, fold_left (fun s i => s && v i) l s = s && forallb v l).
    { induction l as [|i l IH]; intros s; cbn; [rewrite andb_true_r; reflexivity|]. rewrite IH, andb_assoc. reflexivity. }
    rewrite X, andb_true_l, forallb_forall. split; intros Y i Hi; apply Y, in_all; exact Hi.
Qed.
Lemma any_bool_lemma o get ext v : order_of o ext -> holds get ext v ->
  exists r, reduce Any_true_bool o get ext = Some r /\ (r = true <-> exists i, in_ext ext i /\ v i = true).
Proof.
  intros H G. eexists. split.
  - apply (reduce_all Any_true_bool o get ext v); auto; cbn.
    + intros [|] x E; [reflexivity|discriminate].
    + intros s x y. rewrite <- !orb_assoc, (orb_comm x y). reflexivity.
  - cbn [value Any_true_bool update initial].
    assert (X : forall l s, fold_left (fun s i => s || v i) l s = s || existsb v l).
    { induction l as [|i l IH]; intros s; cbn; [rewrite orb_false_r; reflexivity|]. rewrite IH, orb_assoc. reflexivity. }
    rewrite X, orb_false_l, existsb_exists. split; intros (i & Hi & Y); exists i; (split; [apply in_all|]; auto); apply in_all; exact Hi.
Qed.

(** ** Extrema *)
Section Extrema.
Context {A K : Type} (key : A -> K) (better : K -> K -> bool) (SW : strict_weak better).
Definition pick (v : list nat -> A) (s : K * list nat) (i : list nat) := if better (key (v i)) (fst s) then (key (v i), i) else s.

Lemma idx_fold o get ext v : order_of o ext -> Forall (fun n => 0 < n) ext -> holds get ext v ->
  reduce_idx key better o get ext = Some (fold_left (pick v) (ixs o ext) (key (v (repeat 0 (length ext))), repeat 0 (length ext))).
Proof using.
  intros H N G. assert (V : forall i s, in_ext ext i -> visit key better get i s = Some (pick v s i)).
  { intros i s Hi. unfold visit. rewrite G by exact Hi. cbn [bind]. reflexivity. }
  assert (Z0 : get (repeat 0 (length ext)) = Some (v (repeat 0 (length ext)))).
  { apply G. unfold in_ext. clear -N. induction N; cbn; constructor; auto. }
  unfold ixs. rewrite fold_map.
  destruct ext as [|n0 [|n1 [|n2 [|? ?]]]]; cbn [order_of] in H; try contradiction; cbn [length repeat] in *.
  - subst o. cbn [reduce_idx]. rewrite Z0. cbn [bind map all_indices fold_right]. rewrite fold_flat. apply loop_fold. intros j t Hj. apply V. cbn in Hj. repeat constructor; lia.
  - assert (X : forall a b (p : nat -> nat -> list nat) s, (forall x y, x < a -> y < b -> in_ext [n0;n1] (p x y)) ->
      for2 a b (fun x y => visit key better get (p x y)) s = Some (fold_left (fun s x => fold_left (fun s y => pick v s (p x y)) (seq 0 b) s) (seq 0 a) s)).
    { intros a b p s Hp. unfold for2. apply loop_fold. intros x t Hx. apply loop_fold. intros y t' Hy. apply V, Hp; lia. }
    destruct H as [-> | ->]; cbn [reduce_idx]; rewrite Z0; cbn [bind]; rewrite X by (intros; repeat constructor; lia); f_equal;
    cbn [map all_indices fold_right nth]; rewrite fold_flat; apply fold_ext; intros s x _; rewrite fold_map, fold_flat; apply fold_ext; intros t y _; reflexivity.
  - assert (X : forall a b c (p : nat -> nat -> nat -> list nat) s, (forall x y z, x < a -> y < b -> z < c -> in_ext [n0;n1;n2] (p x y z)) ->
      for3 a b c (fun x y z => visit key better get (p x y z)) s = Some (fold_left (fun s x => fold_left (fun s y => fold_left (fun s z => pick v s (p x y z)) (seq 0 c) s) (seq 0 b) s) (seq 0 a) s)).
    { intros a b c p s Hp. unfold for3. apply loop_fold. intros x t Hx. apply loop_fold. intros y t' Hy. apply loop_fold. intros z t'' Hz. apply V, Hp; lia. }
    repeat match type of H with _ \/ _ => destruct H as [H|H] end; subst; cbn [reduce_idx]; rewrite Z0; cbn [bind]; rewrite X by (intros; repeat constructor; lia); f_equal;
    cbn [map all_indices fold_right nth]; rewrite fold_flat; apply fold_ext; intros s x _; rewrite fold_map, fold_flat; apply fold_ext; intros t y _; rewrite fold_map, fold_flat; apply fold_ext; intros t' z _; reflexivity.
Qed.

Lemma pick_inv v l : forall P b p, nth_error P p = Some b ->
  (forall q i, nth_error P q = Some i -> better (key (v i)) (key (v b)) = false /\ (q < p -> better (key (v b)) (key (v i)) = true)) ->
  exists b' p', fold_left (pick v) l (key (v b), b) = (key (v b'), b') /\ nth_error (P ++ l) p' = Some b' /\
    forall q i, nth_error (P ++ l) q = Some i -> better (key (v i)) (key (v b')) = false /\ (q < p' -> better (key (v b')) (key (v i)) = true).
Proof using SW.
  destruct SW as (Ir & Tr & Ng). induction l as [|x l IH]; intros P b p Hp H.
  - exists b, p. rewrite app_nil_r. auto.
  - cbn [fold_left]. unfold pick at 2. cbn [fst]. replace (P ++ x :: l) with ((P ++ [x]) ++ l) by (rewrite <- app_assoc; reflexivity).
    pose proof (nth_error_Some P p) as Lp. rewrite Hp in Lp. assert (p < length P) by (apply Lp; discriminate).
    destruct (better (key (v x)) (key (v b))) eqn:E.
    + apply (IH (P ++ [x]) x (length P)).
      * rewrite nth_error_app2, Nat.sub_diag by lia. reflexivity.
      * intros q i Hq. destruct (Nat.lt_ge_cases q (length P)) as [L|L].
        -- rewrite nth_error_app1 in Hq by exact L. destruct (H q i Hq) as [H1 _]. split.
           ++ destruct (better (key (v i)) (key (v x))) eqn:E2; [|reflexivity]. rewrite (Tr _ _ _ E2 E) in H1. discriminate.
           ++ intros _. destruct (better (key (v x)) (key (v i))) eqn:E2; [reflexivity|]. rewrite (Ng _ _ _ E2 H1) in E. discriminate.
        -- rewrite nth_error_app2 in Hq by exact L. destruct (q - length P) as [|k] eqn:Ek; [|destruct k; discriminate]. cbn in Hq. injection Hq as <-.
           split; [apply Ir|]. intros; lia.
    + apply (IH (P ++ [x]) b p).
      * rewrite nth_error_app1 by assumption. exact Hp.
      * intros q i Hq. destruct (Nat.lt_ge_cases q (length P)) as [L|L].
        -- rewrite nth_error_app1 in Hq by exact L. exact (H q i Hq).
        -- rewrite nth_error_app2 in Hq by exact L. destruct (q - length P) as [|k] eqn:Ek; [|destruct k; discriminate]. cbn in Hq. injection Hq as <-.
           split; [exact E|]. intros; lia.
Qed.

Lemma ixs_head o ext : order_of o ext -> Forall (fun n => 0 < n) ext -> exists l, ixs o ext = repeat 0 (length ext) :: l.
Proof using.
  intros H N. unfold ixs. ocases H; repeat match goal with N : Forall _ (_ :: _) |- _ => inversion N; clear N; subst end;
  repeat match goal with N : 0 < ?n |- _ => destruct n; [lia|]; clear N end; eexists; reflexivity.
Qed.

Lemma extremum_lemma o get ext v : order_of o ext -> Forall (fun n => 0 < n) ext -> holds get ext v ->
  exists b, reduce_idx key better o get ext = Some (key (v b), b) /\ in_ext ext b /\
    (forall i, in_ext ext i -> better (key (v i)) (key (v b)) = false) /\
    (forall i, in_ext ext i -> before o i b -> better (key (v b)) (key (v i)) = true).
Proof using SW.
  intros H N G. rewrite (idx_fold o get ext v H N G). destruct (ixs_head o ext H N) as (l & E). set (z := repeat 0 (length ext)) in *.
  rewrite E. cbn [fold_left]. unfold pick at 2. cbn [fst]. destruct SW as (Ir & _ & _). rewrite Ir.
  destruct (pick_inv v l [z] z 0 eq_refl) as (b & p & Ef & Hp & Hb).
  { intros [|[|q]] i Hq; try discriminate. cbn in Hq. injection Hq as <-. split; [apply Ir|]. intros; lia. }
  exists b. rewrite Ef. split; [reflexivity|]. cbn [app] in Hp, Hb. rewrite <- E in Hp, Hb.
  split; [apply (ixs_in o ext b H); eapply nth_error_In; exact Hp|]. split.
  - intros i Hi. apply (ixs_in o ext i H), In_nth_error in Hi as (q & Hq). apply (Hb q i Hq).
  - intros i Hi B. apply (ixs_in o ext i H), In_nth_error in Hi as (q & Hq). destruct (Nat.lt_trichotomy q p) as [L|[->|L]].
    + apply (Hb q i Hq). exact L.
    + assert (i = b) as -> by congruence. destruct (before_irrefl _ _ B).
    + pose proof (ss_nth _ _ (ixs_sorted o ext H) p q b i L Hp Hq) as B'. destruct (before_asym _ _ _ B B').
Qed.
End Extrema.
