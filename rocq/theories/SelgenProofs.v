(** Proofs about selection, generation and clipping. *)
From Coq Require Import ZArith List Lia Bool Arith.
From Verif Require Import Base Layout LayoutProofs Selgen.
Import ListNotations.
Local Open Scope nat_scope.

Lemma nth_skip {A} (l : list A) n : forall i, nth_error (skipn n l) i = nth_error l (n + i).
Proof. revert l. induction n as [|n IH]; intros l i; [reflexivity|]. destruct l as [|x l]; [destruct i; reflexivity|]. cbn. apply IH. Qed.
Lemma nth_first {A} (l : list A) n : forall i, i < n -> nth_error (firstn n l) i = nth_error l i.
Proof. revert l. induction n as [|n IH]; intros l i H; [lia|]. destruct l as [|x l]; [reflexivity|]. destruct i as [|i]; cbn; [reflexivity|]. apply IH. lia. Qed.

Lemma nth_ext_lt {A} (a b : list A) : length a = length b -> (forall i, i < length a -> nth_error a i = nth_error b i) -> a = b.
Proof.
  intros L H. apply nth_error_ext. intros i. destruct (Nat.lt_ge_cases i (length a)) as [Hi|Hi]; [auto|].
  rewrite (proj2 (nth_error_None a i)), (proj2 (nth_error_None b i)) by lia. reflexivity.
Qed.

(** ** indexbool *)
Definition put_first {A} (old l : list A) : list A := firstn (length old) l ++ skipn (length l) old.
Lemma put_first_len {A} (old l : list A) : length (put_first old l) = length old.
Proof. unfold put_first. rewrite app_length, firstn_length, skipn_length. lia. Qed.
Lemma put_first_spec {A} (old l : list A) : overwritten old l (put_first old l).
Proof.
  split; [apply put_first_len|]. intros k Hk. unfold put_first. destruct (Nat.ltb_spec k (length l)) as [L|L].
  - rewrite nth_error_app1 by (rewrite firstn_length; lia). apply nth_first. exact Hk.
  - rewrite nth_error_app2 by (rewrite firstn_length; lia). rewrite firstn_length, nth_skip. f_equal. lia.
Qed.
Lemma put_first_step {A} (old l : list A) x : (if length l <? length old then lset (put_first old l) (length l) x else put_first old l) = put_first old (l ++ [x]).
Proof.
  apply nth_ext_lt.
  - destruct (_ <? _); rewrite ?lset_length, !put_first_len; reflexivity.
  - intros k Hk. destruct (put_first_spec old l) as [_ P]. destruct (put_first_spec old (l ++ [x])) as [_ Q].
    rewrite app_length in Q. cbn [length] in Q. destruct (Nat.ltb_spec (length l) (length old)) as [L|L].
    + rewrite lset_length, put_first_len in Hk. rewrite lset_nth, put_first_len, Q by exact Hk. 
      destruct (Nat.eqb_spec k (length l)) as [->|E].
      * replace (length l <? length l + 1) with true by (symmetry; apply Nat.ltb_lt; lia). rewrite nth_error_app2, Nat.sub_diag by lia.
        replace (length l <? length old) with true by (symmetry; apply Nat.ltb_lt; lia). reflexivity.
      * rewrite P by exact Hk. destruct (Nat.ltb_spec k (length l)).
        -- replace (k <? length l + 1) with true by (symmetry; apply Nat.ltb_lt; lia). rewrite nth_error_app1 by lia. reflexivity.
        -- replace (k <? length l + 1) with false by (symmetry; apply Nat.ltb_ge; lia). reflexivity.
    + rewrite put_first_len in Hk. rewrite P, Q by exact Hk. replace (k <? length l) with true by (symmetry; apply Nat.ltb_lt; lia).
      replace (k <? length l + 1) with true by (symmetry; apply Nat.ltb_lt; lia). rewrite nth_error_app1 by lia. reflexivity.
Qed.

(** One visit. *)
Definition visit {A} (b : bool) (x : A) (s : nat * list A) : option (nat * list A) :=
  let '(cursor, ix) := s in
  if b then if cursor <? length ix then ix' <- bput ix (cursor + 1 - 1) x ;; Some (cursor + 1, ix') else Some (cursor + 1, ix) else Some (cursor, ix).
Lemma visit_step {A} b (x : A) old l : visit b x (length l, put_first old l) = Some (let l' := if b then l ++ [x] else l in (length l', put_first old l')).
Proof.
  unfold visit. destruct b; [|reflexivity]. cbn zeta. rewrite <- put_first_step, put_first_len, app_length. cbn [length].
  destruct (Nat.ltb_spec (length l) (length old)) as [L|L]; [|reflexivity]. replace (length l + 1 - 1) with (length l) by lia.
  rewrite bput_some by (rewrite put_first_len; exact L). reflexivity.
Qed.
Lemma indexbool1_ok s ix : exists out, indexbool1 s ix = Some (length (true_positions s), out) /\ overwritten ix (true_positions s) out.
Proof.
  unfold indexbool1, true_positions. exists (put_first ix (filter (fun i => nth i s false) (seq 0 (length s)))). split; [|apply put_first_spec].
  destruct (loop_inv (fun i '(cursor, ix) => b <- bget s i ;; if b then if cursor <? length ix then ix' <- bput ix (cursor + 1 - 1) i ;; Some (cursor + 1, ix') else Some (cursor + 1, ix) else Some (cursor, ix))
     (fun k st => let l := filter (fun i => nth i s false) (seq 0 k) in st = (length l, put_first ix l)) (length s) 0 (0, ix)) as (st & E & P).
  - cbn. unfold put_first. rewrite firstn_nil. reflexivity.
  - intros k st Hk ->. cbn zeta. eexists. split; [|reflexivity]. cbn [Nat.add] in Hk. unfold bget.
    destruct (nth_error s k) as [b|] eqn:Eb; [|apply nth_error_None in Eb; lia]. cbn [bind].
    pose proof (visit_step b k ix (filter (fun i => nth i s false) (seq 0 k))) as V. unfold visit in V. rewrite V. f_equal. cbn zeta.
    replace (k + 1) with (S k) by lia. rewrite seq_S, filter_app. cbn [Nat.add filter]. rewrite (nth_error_nth s k false Eb). destruct b; [reflexivity|]. rewrite app_nil_r. reflexivity.
  - rewrite E. cbn zeta in P. rewrite P. reflexivity.
Qed.

Lemma filter_row (f : nat * nat -> bool) r n : filter f (map (fun y => (r, y)) (seq 0 (S n))) = filter f (map (fun y => (r, y)) (seq 0 n)) ++ (if f (r, n) then [(r, n)] else []).
Proof. rewrite seq_S, map_app, filter_app. reflexivity. Qed.
Lemma prod_app {A B} (l1 l2 : list A) (m : list B) : list_prod (l1 ++ l2) m = list_prod l1 m ++ list_prod l2 m.
Proof. induction l1 as [|x l1 IH]; cbn; [reflexivity|]. rewrite IH, app_assoc. reflexivity. Qed.

Lemma indexbool2_ok rows cols get v ix : (forall r c, r < rows -> c < cols -> get r c = Some (v r c)) ->
  exists out, indexbool2 rows cols get ix = Some (length (true_positions2 rows cols v), out) /\ overwritten ix (true_positions2 rows cols v) out.
Proof.
  intros G. unfold indexbool2, true_positions2. set (f := fun p : nat * nat => v (fst p) (snd p)).
  exists (put_first ix (filter f (list_prod (seq 0 rows) (seq 0 cols)))). split; [|apply put_first_spec].
  match goal with |- loop ?F _ _ _ = _ => destruct (loop_inv F (fun k st => let l := filter f (list_prod (seq 0 k) (seq 0 cols)) in st = (length l, put_first ix l)) rows 0 (0, ix)) as (st & E & P) end.
  - cbn. unfold put_first. rewrite firstn_nil. reflexivity.
  - intros r st Hr ->. cbn zeta. set (l := filter f (list_prod (seq 0 r) (seq 0 cols))).
    match goal with |- exists _, loop ?F _ _ _ = _ /\ _ => destruct (loop_inv F (fun k st => let l' := l ++ filter f (map (fun y => (r, y)) (seq 0 k)) in st = (length l', put_first ix l')) cols 0 (length l, put_first ix l)) as (st & E & P) end.
    + cbn. rewrite app_nil_r. reflexivity.
    + intros c st Hc ->. cbn zeta. eexists. split; [|reflexivity]. rewrite G by lia. cbn [bind].
      match goal with |- (if _ then if _ <? length (put_first ix ?L) then _ else _ else _) = _ => pose proof (visit_step (v r c) (r, c) ix L) as V end.
      unfold visit in V. rewrite V. f_equal. cbn zeta. replace (c + 1) with (S c) by lia. rewrite filter_row. replace (f (r, c)) with (v r c) by reflexivity.
      destruct (v r c); rewrite ?app_nil_r, ?app_assoc; reflexivity.
    + exists st. split; [exact E|]. cbn zeta in P. rewrite P. replace (r + 1) with (S r) by lia. rewrite seq_S, prod_app, filter_app. cbn [Nat.add list_prod]. rewrite app_nil_r. reflexivity.
  - rewrite E. cbn zeta in P. rewrite P. reflexivity.
Qed.

(** ** first *)
Lemma first_from_ok {A B} (p : A -> B -> bool) v w n : forall i, i + n = length v -> length v = length w ->
  exists r, first_from p v w i n = Some r /\ i <= r <= length v /\
    (forall k x y, i <= k < r -> nth_error v k = Some x -> nth_error w k = Some y -> p x y = false) /\
    (r < length v -> exists x y, nth_error v r = Some x /\ nth_error w r = Some y /\ p x y = true).
Proof.
  induction n as [|n IH]; intros i H E; cbn [first_from].
  - exists (length v). split; [reflexivity|]. split; [lia|]. split; [intros; lia|]. intros; lia.
  - unfold bget. destruct (nth_error v i) as [x|] eqn:Ex; [|apply nth_error_None in Ex; lia]. destruct (nth_error w i) as [y|] eqn:Ey; [|apply nth_error_None in Ey; lia].
    cbn [bind]. destruct (p x y) eqn:P.
    + exists i. split; [reflexivity|]. split; [lia|]. split; [intros; lia|]. intros _. exists x, y. auto.
    + destruct (IH (i + 1) ltac:(lia) E) as (r & R & L & N & Y). exists r. split; [exact R|]. split; [lia|]. split; [|exact Y].
      intros k a b Hk Ha Hb. destruct (Nat.eq_dec k i) as [->|]; [congruence|]. apply (N k); auto. lia.
Qed.
Lemma first_ok {A B} begin (p : A -> B -> bool) v w : length v = length w -> begin <= length v ->
  exists r, first begin p v w = Some r /\ begin <= r <= length v /\
    (forall k x y, begin <= k < r -> nth_error v k = Some x -> nth_error w k = Some y -> p x y = false) /\
    (r < length v -> exists x y, nth_error v r = Some x /\ nth_error w r = Some y /\ p x y = true).
Proof.
  intros E H. unfold first. rewrite (proj2 (Nat.eqb_eq _ _) E). cbn [bind]. rewrite (proj2 (Nat.ltb_ge _ _) H). apply first_from_ok; [lia|exact E].
Qed.

(** ** gather and scatter *)
Section Views.
Context {A : Type}.
Lemma gather_ok (s : view A) ixs w : (forall k i, nth_error ixs k = Some i -> s i = Some (w k)) ->
  gather s ixs = Some (map (fun k => Some (w k)) (seq 0 (length ixs))).
Proof.
  intros H. unfold gather.
  match goal with |- loop ?F _ _ _ = _ => destruct (loop_inv F (fun k r => length r = length ixs /\ forall j, j < k -> nth_error r j = Some (Some (w j))) (length ixs) 0 (repeat None (length ixs))) as (r & E & L & P) end.
  - split; [apply repeat_length|]. intros; lia.
  - intros k r Hk [L P]. unfold bget, vget. destruct (nth_error ixs k) as [i|] eqn:Ei; [|apply nth_error_None in Ei; lia]. cbn [bind]. rewrite (H k i Ei). cbn [bind].
    rewrite bput_some by lia. eexists. split; [reflexivity|]. split; [rewrite lset_length; exact L|]. intros j Hj. rewrite lset_nth.
    destruct (Nat.eqb_spec j k) as [->|N].
    + replace (k <? length r) with true by (symmetry; apply Nat.ltb_lt; lia). reflexivity.
    + apply P. lia.
  - rewrite E. f_equal. apply nth_ext_lt; [rewrite map_length, seq_length; exact L|]. intros j Hj. rewrite nth_error_map_seq, P by lia.
    replace (j <? length ixs) with true by (symmetry; apply Nat.ltb_lt; lia). reflexivity.
Qed.

Lemma vput_spec (v : view A) i x d : v i = Some d -> exists v', vput v i x = Some v' /\ forall j, v' j = if list_eq_dec Nat.eq_dec j i then Some x else v j.
Proof. intros E. unfold vput. rewrite E. eexists. split; [reflexivity|]. intros j. reflexivity. Qed.

(** The value at [j]: that of the last source element sent there. *)
Lemma scatter_ok src ixs (d : view A) : length ixs <= length src -> (forall i, In i ixs -> d i <> None) ->
  exists d', scatter src ixs d = Some d' /\
    (forall j, ~ In j ixs -> d' j = d j) /\
    (forall k j, nth_error ixs k = Some j -> (forall k', k < k' -> nth_error ixs k' <> Some j) -> d' j = nth_error src k).
Proof.
  intros L D. unfold scatter.
  match goal with |- exists _, loop ?F _ _ _ = _ /\ _ => destruct (loop_inv F (fun n d' =>
     (forall j, d j <> None -> d' j <> None) /\
     (forall j, (forall k, k < n -> nth_error ixs k <> Some j) -> d' j = d j) /\
     (forall k j, k < n -> nth_error ixs k = Some j -> (forall k', k < k' < n -> nth_error ixs k' <> Some j) -> d' j = nth_error src k)) (length ixs) 0 d) as (d' & E & _ & P & Q) end.
  - split; [auto|]. split; [auto|]. intros; lia.
  - intros n d' Hn (K & P & Q). unfold bget. destruct (nth_error ixs n) as [i|] eqn:Ei; [|apply nth_error_None in Ei; lia].
    destruct (nth_error src n) as [x|] eqn:Ex; [|apply nth_error_None in Ex; lia]. cbn [bind].
    destruct (d' i) as [y|] eqn:Ed; [|exfalso; apply (K i); [apply D; eapply nth_error_In; exact Ei|exact Ed]].
    destruct (vput_spec d' i x y Ed) as (d2 & E2 & S2). exists d2. split; [exact E2|]. split; [|split].
    + intros j Hj. rewrite S2. destruct (list_eq_dec _ _ _); [discriminate|auto].
    + intros j Hj. rewrite S2. destruct (list_eq_dec Nat.eq_dec j i) as [->|N]; [exfalso; apply (Hj n); [lia|exact Ei]|]. apply P. intros k Hk. apply Hj. lia.
    + intros k j Hk Ej U. rewrite S2. destruct (list_eq_dec Nat.eq_dec j i) as [->|N].
      * destruct (Nat.eq_dec k n) as [->|Nk]; [congruence|]. exfalso. apply (U n); [lia|exact Ei].
      * destruct (Nat.eq_dec k n) as [->|Nk]; [congruence|]. apply Q; [lia|exact Ej|]. intros k' Hk'. apply U. lia.
  - exists d'. split; [exact E|]. split.
    + intros j N. apply P. intros k _ Ek. apply N. eapply nth_error_In; exact Ek.
    + intros k j Ej U. apply Q; [apply nth_error_Some; congruence|exact Ej|]. intros k' Hk'. apply U. lia.
Qed.
Lemma gather_scatter src ixs (d : view A) : length ixs = length src -> NoDup ixs -> (forall i, In i ixs -> d i <> None) ->
  exists d', scatter src ixs d = Some d' /\ gather d' ixs = Some (map Some src).
Proof.
  intros L N D. destruct (scatter_ok src ixs d ltac:(lia) D) as (d' & E & _ & Q). exists d'. split; [exact E|].
  destruct src as [|x0 src0]; [destruct ixs; [reflexivity|discriminate]|]. set (src := x0 :: src0) in *.
  rewrite (gather_ok d' ixs (fun k => nth k src x0)).
  - f_equal. apply nth_ext_lt; [rewrite !map_length, seq_length; exact L|]. intros k Hk. rewrite map_length, seq_length in Hk.
    rewrite nth_error_map_seq. replace (k <? length ixs) with true by (symmetry; apply Nat.ltb_lt; lia). rewrite nth_error_map.
    rewrite (nth_error_nth' src x0) by lia. reflexivity.
  - intros k i Ei. rewrite (Q k i Ei).
    + apply nth_error_nth'. apply nth_error_Some. assert (nth_error ixs k <> None) by congruence. apply nth_error_Some in H. apply nth_error_Some. lia.
    + intros k' Hk' E'. rewrite NoDup_nth_error in N. specialize (N k k'). rewrite Ei, E' in N.
      assert (k = k') by (apply N; [apply nth_error_Some; congruence|reflexivity]). lia.
Qed.
End Views.

(** ** swap *)
Lemma swap_loop {A} (a b : list A) n : n <= length a -> n <= length b ->
  loop (fun i '(c1, c2) => tmp <- bget c1 i ;; x <- bget c2 i ;; c1' <- bput c1 i x ;; c2' <- bput c2 i tmp ;; Some (c1', c2')) 0 n (a, b)
  = Some (firstn n b ++ skipn n a, firstn n a ++ skipn n b).
Proof.
  intros La Lb. 
  match goal with |- loop ?F _ _ _ = _ => destruct (loop_inv F (fun k s => s = (firstn k b ++ skipn k a, firstn k a ++ skipn k b)) n 0 (a, b)) as (r & E & P) end.
  - reflexivity.
  - intros k s Hk ->. eexists. split; [|reflexivity]. cbn [Nat.add] in Hk.
    assert (X : forall u w : list A, k < length u -> k < length w -> bget (firstn k u ++ skipn k w) k = nth_error w k).
    { intros u w Hu Hw. unfold bget. rewrite nth_error_app2; rewrite firstn_length; [|lia]. replace (k - Nat.min k (length u)) with 0 by lia.
      rewrite nth_skip, Nat.add_0_r. reflexivity. }
    rewrite !X by lia. destruct (nth_error a k) as [x|] eqn:Ex; [|apply nth_error_None in Ex; lia]. destruct (nth_error b k) as [y|] eqn:Ey; [|apply nth_error_None in Ey; lia].
    cbn [bind]. rewrite bput_some by (rewrite app_length, firstn_length, skipn_length; lia). cbn [bind]. rewrite bput_some by (rewrite app_length, firstn_length, skipn_length; lia). cbn [bind].
    assert (Y : forall (u w : list A) z, k < length u -> k < length w -> nth_error u k = Some z -> lset (firstn k u ++ skipn k w) k z = firstn (k + 1) u ++ skipn (k + 1) w).
    { intros u w z Hu Hw Ez. clear -Hu Hw Ez. revert u w Hu Hw Ez. induction k as [|k IH]; intros [|u0 u] [|w0 w] Hu Hw Ez; cbn in *; try lia; [congruence|]. f_equal. apply IH; auto; lia. }
    rewrite (Y b a y), (Y a b x) by (auto; lia). reflexivity.
  - rewrite E, P. reflexivity.
Qed.

Lemma dense_size o ext l : pos_ext ext -> make_layout o P_dense ext = Some l -> total_size l = fold_right Z.mul 1%Z ext.
Proof.
  intros P M. unfold make_layout in M. destruct (negb _); [discriminate|]. destruct ext as [|n0 [|n1 [|n2 [|? ?]]]]; try discriminate.
  - injection M as <-. cbn. lia.
  - injection M as <-. destruct (dim_ o 0 =? 0); cbn; lia.
  - injection M as <-. cbn. lia.
Qed.

Lemma swap_elements {A} o e l (c1 c2 : list A) : pos_ext e -> make_layout o P_dense e = Some l ->
  Z.of_nat (length c1) = total_size l -> Z.of_nat (length c2) = total_size l ->
  let b1 := {| lay := l; ext := e; cells := c1 |} in let b2 := {| lay := l; ext := e; cells := c2 |} in
  swap b1 b2 = Some (b2, b1).
Proof.
  intros P M L1 L2 b1 b2. unfold swap, b1, b2. assert (Sz : forall c, length c = length c1 -> block_size {| lay := l; ext := e; cells := c : list A |} = length c1).
  { intros c _. unfold block_size. cbn [ext]. rewrite <- (dense_size o e l P M). lia. }
  rewrite (Sz c1), (Sz c2) by lia. rewrite Nat.eqb_refl. cbn [bind cells].
  rewrite swap_loop by lia. cbn [bind fst snd]. unfold with_cells. cbn [lay ext]. rewrite !firstn_all2, !skipn_all2, !app_nil_r by lia. reflexivity.
Qed.

(** ** ramp *)
Section Ramp.
Context (K : CRing).
Add Ring Kring : (r_th K).
Lemma ramp_ok (a b : K) len : 0 < len -> exists v, ramp a b len = Some v /\
  v 0 = Some a /\ (forall i, i + 1 < len -> exists x, v i = Some x /\ v (i + 1) = Some (radd x b)) /\ (forall i, len <= i -> v i = None).
Proof.
  intros H. unfold ramp. rewrite (proj2 (Nat.ltb_lt _ _) H). eexists. split; [reflexivity|]. cbn beta. split; [|split].
  - rewrite (proj2 (Nat.ltb_lt _ _) H). cbn [ring_nat]. f_equal. ring.
  - intros i Hi. rewrite (proj2 (Nat.ltb_lt i len)), (proj2 (Nat.ltb_lt (i + 1) len)) by lia. eexists. split; [reflexivity|]. cbn [bind]. f_equal.
    replace (i + 1) with (S i) by lia. cbn [ring_nat]. ring.
  - intros i Hi. rewrite (proj2 (Nat.ltb_ge i len)) by lia. reflexivity.
Qed.
End Ramp.
