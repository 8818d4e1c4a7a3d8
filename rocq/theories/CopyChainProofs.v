(** Proofs about copy chains. *)
From Coq Require Import List Arith ZArith Lia Bool FinFun.
From Verif Require Import Base CopyChain.
Import ListNotations.

Lemma built_size c : built c -> data_size c = length (bytes c).
Proof.
  assert (A : forall (f : Z -> Z) r, length (rec_bytes (mkrec (f (start r)) (esz r) (stride r) (len r))) = length (rec_bytes r)).
  { intros f r. unfold rec_bytes. cbn [len]. generalize (seq 0 (len r)) as l. induction l as [|i l IH]; [reflexivity|].
    cbn [flat_map]. rewrite !app_length, IH. f_equal. unfold elem_bytes. rewrite !map_length. reflexivity. }
  assert (L : forall r, length (rec_bytes r) = esz r * len r).
  { intros r. unfold rec_bytes. assert (forall l, length (flat_map (elem_bytes r) l) = esz r * length l) as ->.
    { induction l as [|i l IH]; cbn; [lia|]. rewrite app_length, IH. unfold elem_bytes. rewrite map_length, seq_length. lia. }
    rewrite seq_length. reflexivity. }
  induction 1 as [|c st es sd ln _ IH|c d _ IHc _ IHd|c o d _ IHc _ IHd]; unfold bytes in *; cbn [recs data_size add append append_offset empty_chain].
  - reflexivity.
  - rewrite flat_map_app, app_length, <- IH. cbn [flat_map]. rewrite app_nil_r, L. reflexivity.
  - rewrite flat_map_app, app_length. lia.
  - rewrite flat_map_app, app_length, IHc, IHd. f_equal. clear IHc IHd. induction (recs d) as [|r l IH]; [reflexivity|].
    cbn [map flat_map]. rewrite !app_length, <- IH, (A (fun x => x + o)%Z). reflexivity.
Qed.

Lemma bytes_builders c d st es sd ln o :
  bytes empty_chain = [] /\
  bytes (add c st es sd ln) = bytes c ++ rec_bytes (mkrec st es sd ln) /\
  bytes (append c d) = bytes c ++ bytes d /\
  bytes (append_offset c o d) = bytes c ++ map (fun a => a + o)%Z (bytes d).
Proof.
  unfold bytes. cbn [recs add append append_offset empty_chain flat_map]. rewrite !flat_map_app. cbn [flat_map].
  rewrite app_nil_r. repeat split. f_equal.
  induction (recs d) as [|r l IH]; [reflexivity|]. cbn [map flat_map]. rewrite map_app, IH. f_equal.
  unfold rec_bytes. cbn [len]. generalize (seq 0 (len r)) as k. induction k as [|i k IHk]; [reflexivity|].
  cbn [flat_map]. rewrite map_app, IHk. f_equal. unfold elem_bytes. rewrite map_map. apply map_ext. cbn [start stride esz]. intros; lia.
Qed.

Section P.
Context {V : Type}.

Lemma moves_app (m : mem V) a b : moves m (a ++ b) = (m' <- moves m a ;; moves m' b).
Proof.
  revert m; induction a as [|x a IH]; intros m; [reflexivity|]. cbn [app moves].
  destruct (move m x); cbn [bind]; [apply IH|reflexivity].
Qed.

Lemma moves_spec l : forall (m : mem V), NoDup (map fst l) -> readable m (map fst l) -> readable m (map snd l) ->
  disjoint (map fst l) (map snd l) ->
  exists m', moves m l = Some m' /\ (forall d s, In (d, s) l -> m' d = m s) /\
    (forall a, ~ In a (map fst l) -> m' a = m a).
Proof.
  induction l as [|[d s] l IH]; intros m N Rd Rs D.
  - exists m. cbn. repeat split; auto. intros ? ? [].
  - cbn [map fst snd] in *. inversion N as [|? ? Nd Nl]; subst.
    destruct (Rs s (or_introl eq_refl)) as (v & Ev). destruct (Rd d (or_introl eq_refl)) as (w & Ew).
    cbn [moves]. unfold move. cbn [fst snd]. unfold mload, mstore. rewrite Ev. cbn [bind]. rewrite Ew. cbn [bind].
    assert (U : forall a, a <> d -> mupd m d v a = m a).
    { intros a Ha. unfold mupd. destruct (Z.eqb_spec a d); [contradiction|reflexivity]. }
    destruct (IH (mupd m d v)) as (m' & E & M1 & M2); auto.
    + intros a Ha. rewrite U; [apply Rd; right; exact Ha|]. intros ->. contradiction.
    + intros a Ha. rewrite U; [apply Rs; right; exact Ha|]. intros ->. apply (D d (or_introl eq_refl)). right; exact Ha.
    + intros x Hx Hx'. apply (D x (or_intror Hx)). right; exact Hx'.
    + exists m'. split; [exact E|]. split.
      * intros d' s' [[= <- <-]|I].
        -- rewrite M2 by assumption. unfold mupd. rewrite Z.eqb_refl. congruence.
        -- rewrite (M1 d' s' I). apply U. intros ->. apply (D d (or_introl eq_refl)). right.
           apply in_map_iff. exists (d', d). auto.
      * intros a Ha. rewrite M2 by (intros X; apply Ha; right; exact X). apply U. intros ->. apply Ha. left; reflexivity.
Qed.

Lemma combine_app {A B} (a b : list A) (c d : list B) : length a = length c ->
  combine (a ++ b) (c ++ d) = combine a c ++ combine b d.
Proof. revert c; induction a as [|x a IH]; intros [|y c] H; try discriminate; cbn; [reflexivity|]. f_equal. apply IH. cbn in H; lia. Qed.

Lemma area_app p a b : area p (a + b) = area p a ++ area (p + Z.of_nat a) b.
Proof.
  unfold area. rewrite seq_app, map_app. f_equal. cbn [Nat.add].
  rewrite <- (Nat.add_0_r a) at 1. generalize 0 as s. intros s. rewrite <- (Nat.add_comm s a).
  revert s. induction b as [|b IH]; intros s; cbn [seq map]; [reflexivity|]. f_equal; [lia|].
  specialize (IH (S s)). cbn [Nat.add] in IH. exact IH.
Qed.
Lemma area_len p n : length (area p n) = n.
Proof. unfold area. rewrite map_length, seq_length. reflexivity. Qed.

Lemma memcpy_area (m : mem V) d s n : memcpy m d s n = moves m (combine (area d n) (area s n)).
Proof.
  unfold memcpy, area. f_equal. generalize 0 as i. induction n as [|n IH]; intros i; cbn [seq map combine]; [reflexivity|].
  f_equal. apply IH.
Qed.

Lemma elem_area r i : elem_bytes r i = area (start r + Z.of_nat i * stride r * Z.of_nat (esz r)) (esz r).
Proof. reflexivity. Qed.

(** Consecutive elements of a unit-stride record are one area. *)
Lemma unit_area r i n : stride r = 1%Z ->
  flat_map (elem_bytes r) (seq i n) = area (start r + Z.of_nat i * Z.of_nat (esz r)) (n * esz r).
Proof.
  intros S. revert i; induction n as [|n IH]; intros i; cbn [seq flat_map]; [reflexivity|].
  rewrite IH, elem_area, S. cbn [Nat.mul]. rewrite area_app. f_equal; f_equal; nia.
Qed.

Lemma gather_moves l : forall (m : mem V) dest size,
  size = length (flat_map rec_bytes l) ->
  gather l (m, dest, size) =
  (m' <- moves m (combine (area dest size) (flat_map rec_bytes l)) ;; Some (m', (dest + Z.of_nat size)%Z, 0)).
Proof.
  induction l as [|r l IH]; intros m dest size E; cbn [gather flat_map] in *.
  - cbn in E; subst size. cbn [length area seq map combine moves bind]. replace (dest + Z.of_nat 0)%Z with dest by lia. reflexivity.
  - rewrite app_length in E.
    assert (Lr : length (rec_bytes r) = len r * esz r).
    { unfold rec_bytes. assert (forall k, length (flat_map (elem_bytes r) k) = length k * esz r) as ->.
      { induction k as [|i k IHk]; cbn; [lia|]. rewrite app_length, IHk. unfold elem_bytes. rewrite map_length, seq_length. lia. }
      rewrite seq_length. reflexivity. }
    rewrite Lr in E. set (n := len r * esz r) in *. set (k := length (flat_map rec_bytes l)) in *.
    assert (G : forall m1 : mem V, gather l (m1, (dest + Z.of_nat n)%Z, size - n) =
       (m' <- moves m1 (combine (area (dest + Z.of_nat n) k) (flat_map rec_bytes l)) ;; Some (m', (dest + Z.of_nat size)%Z, 0))).
    { intros m1. rewrite (IH m1 _ (size - n)) by lia. replace (size - n) with k by lia.
      replace (dest + Z.of_nat n + Z.of_nat k)%Z with (dest + Z.of_nat size)%Z by lia. reflexivity. }
    rewrite E, area_app, combine_app by (rewrite area_len, Lr; reflexivity). rewrite moves_app. rewrite <- E.
    destruct (Z.eqb_spec (stride r) 1) as [S1|S1].
    + assert (n <=? size = true) as -> by (apply Nat.leb_le; lia).
      rewrite memcpy_area. unfold rec_bytes at 1. rewrite (unit_area r 0 (len r) S1). fold n.
      replace (start r + Z.of_nat 0 * Z.of_nat (esz r))%Z with (start r) by lia.
      destruct (moves m (combine (area dest n) (area (start r) n))) as [m1|]; cbn [bind]; [|reflexivity]. apply G.
    + assert (K : forall c i (m0 : mem V) sz, c * esz r <= sz ->
        loop (elem_step r) i c (m0, (dest + Z.of_nat (i * esz r))%Z, (start r + Z.of_nat i * stride r * Z.of_nat (esz r))%Z, sz) =
        (m' <- moves m0 (combine (area (dest + Z.of_nat (i * esz r)) (c * esz r)) (flat_map (elem_bytes r) (seq i c))) ;;
         Some (m', (dest + Z.of_nat ((i + c) * esz r))%Z, (start r + Z.of_nat (i + c) * stride r * Z.of_nat (esz r))%Z, sz - c * esz r))).
      { induction c as [|c IHc]; intros i m0 sz Hsz.
        - cbn [loop Nat.mul area seq map combine moves bind flat_map]. rewrite Nat.add_0_r, Nat.sub_0_r. reflexivity.
        - cbn [loop elem_step]. cbn [Nat.mul] in Hsz.
          assert (esz r <=? sz = true) as -> by (apply Nat.leb_le; lia).
          cbn [seq flat_map]. cbn [Nat.mul]. rewrite area_app, combine_app by (rewrite area_len, elem_area, area_len; reflexivity).
          rewrite moves_app, memcpy_area, elem_area.
          destruct (moves m0 _) as [m1|]; cbn [bind]; [|reflexivity].
          replace (dest + Z.of_nat (i * esz r) + Z.of_nat (esz r))%Z with (dest + Z.of_nat ((i + 1) * esz r))%Z by lia.
          replace (start r + Z.of_nat i * stride r * Z.of_nat (esz r) + stride r * Z.of_nat (esz r))%Z
             with (start r + Z.of_nat (i + 1) * stride r * Z.of_nat (esz r))%Z by (rewrite Nat2Z.inj_add; ring).
          rewrite (IHc (i + 1) m1 (sz - esz r)) by lia.
          replace (i + 1 + c) with (i + S c) by lia. replace (S i) with (i + 1) by lia.
          replace (sz - (esz r + c * esz r)) with (sz - esz r - c * esz r) by lia. reflexivity. }
      specialize (K (len r) 0 m size ltac:(unfold n in *; lia)).
      replace (dest + Z.of_nat (0 * esz r))%Z with dest in K by lia.
      replace (start r + Z.of_nat 0 * stride r * Z.of_nat (esz r))%Z with (start r) in K by lia.
      rewrite K. clear K. fold n. fold (rec_bytes r).
      destruct (moves m (combine (area dest n) (rec_bytes r))) as [m1|]; cbn [bind]; [|reflexivity].
      cbn [Nat.add]. fold n. apply G.
Qed.

Lemma combine_in_nth {A B} (a : list A) (b : list B) k x y : nth_error a k = Some x -> nth_error b k = Some y -> In (x, y) (combine a b).
Proof.
  revert b k; induction a as [|u a IH]; intros [|w b] [|k] E F; try discriminate; cbn in *.
  - left. congruence.
  - right. eapply IH; eassumption.
Qed.
Lemma combine_map {A B} (a : list A) (b : list B) : length a = length b -> map fst (combine a b) = a /\ map snd (combine a b) = b.
Proof.
  revert b; induction a as [|x a IH]; intros [|y b] H; try discriminate; cbn; [auto|].
  destruct (IH b) as [E F]; [cbn in H; lia|]. rewrite E, F. auto.
Qed.

Lemma area_nodup p n : NoDup (area p n).
Proof.
  unfold area. apply FinFun.Injective_map_NoDup; [|apply seq_NoDup]. intros x y H. lia.
Qed.
Lemma area_nth p n k : k < n -> nth_error (area p n) k = Some (p + Z.of_nat k)%Z.
Proof. intros H. unfold area. rewrite nth_error_map_seq. apply Nat.ltb_lt in H. rewrite H. reflexivity. Qed.

Lemma gather_lemma (m : mem V) c dest : built c -> readable m (bytes c) -> readable m (area dest (data_size c)) ->
  disjoint (area dest (data_size c)) (bytes c) ->
  exists m', copy_into_buffer m c dest (data_size c) = Some m' /\
    (forall k a, nth_error (bytes c) k = Some a -> m' (dest + Z.of_nat k)%Z = m a) /\
    (forall x, ~ In x (area dest (data_size c)) -> m' x = m x).
Proof.
  intros B R W D. pose proof (built_size c B) as E. unfold copy_into_buffer. rewrite Nat.eqb_refl.
  rewrite (gather_moves (recs c) m dest (data_size c)) by exact E. fold (bytes c).
  destruct (combine_map (area dest (data_size c)) (bytes c)) as [C1 C2]; [rewrite area_len; exact E|].
  destruct (moves_spec (combine (area dest (data_size c)) (bytes c)) m) as (m' & Em & M1 & M2); rewrite ?C1, ?C2; auto.
  { apply area_nodup. }
  rewrite Em. cbn [bind snd Nat.eqb fst]. exists m'. split; [reflexivity|]. rewrite C1 in M2. split; [|exact M2].
  intros k a Ha. apply M1. apply (combine_in_nth _ _ k); [|exact Ha]. apply area_nth.
  rewrite E. apply nth_error_Some. congruence.
Qed.

(** *** Chain to chain *)
Definition rest (r : rec) (i : nat) (l : list rec) : list Z :=
  flat_map (elem_bytes r) (seq i (len r - i)) ++ flat_map rec_bytes l.
Definition restl (l : list rec) (i : nat) : list Z :=
  match l with [] => [] | r :: l' => rest r i l' end.
Definition st_ok (es : nat) (l : list rec) (p : Z) (i : nat) : Prop :=
  Forall (fun r => esz r = es /\ 0 < len r) l /\
  match l with [] => True | r :: _ => i < len r /\ p = (start r + Z.of_nat i * stride r * Z.of_nat es)%Z end.
(** Elements left. *)
Definition left (l : list rec) (i : nat) : nat := list_sum (map len l) - i.

Lemma flat_len r l : length (flat_map (elem_bytes r) l) = length l * esz r.
Proof. induction l as [|i k IHk]; cbn; [lia|]. rewrite app_length, IHk. unfold elem_bytes. rewrite map_length, seq_length. lia. Qed.

Lemma advance_ok es r l' p i e : Forall (fun r => esz r = es /\ 0 < len r) (r :: l') -> i + e <= len r ->
  p = (start r + Z.of_nat (i + e) * stride r * Z.of_nat es)%Z -> 0 < e ->
  exists l2 p2 i2, advance es r l' p (i + e) = Some (l2, p2, i2) /\ st_ok es l2 p2 i2 /\
    restl (r :: l') i = flat_map (elem_bytes r) (seq i e) ++ restl l2 i2 /\
    length (restl l2 i2) = length (restl (r :: l') i) - e * es.
Proof.
  intros F He Ep Pe. inversion F as [|? ? [Er Lr] F']; subst.
  assert (L : forall A B, A = flat_map (elem_bytes r) (seq i e) ++ B -> length B = length A - e * esz r).
  { intros A B ->. rewrite app_length, flat_len, seq_length. lia. }
  unfold advance. destruct (Nat.eqb_spec (i + e) (len r)) as [E|E].
  - assert (Hr : flat_map (elem_bytes r) (seq i (len r - i)) = flat_map (elem_bytes r) (seq i e)) by (f_equal; f_equal; lia).
    destruct l' as [|r' l'].
    + eexists [], _, _. split; [reflexivity|]. split; [split; constructor|].
      assert (Q : restl [r] i = flat_map (elem_bytes r) (seq i e) ++ []).
      { cbn [restl rest flat_map]. unfold rest. rewrite Hr. reflexivity. }
      split; [exact Q|]. apply L, Q.
    + inversion F' as [|? ? [Er' Lr'] F'']; subst. rewrite Er', Nat.eqb_refl.
      eexists _, _, _. split; [reflexivity|]. split; [split; [exact F'|split; [exact Lr'|lia]]|].
      assert (Q : restl (r :: r' :: l') i = flat_map (elem_bytes r) (seq i e) ++ restl (r' :: l') 0).
      { cbn [restl]. unfold rest. rewrite Hr. cbn [flat_map]. unfold rec_bytes at 1. rewrite Nat.sub_0_r. reflexivity. }
      split; [exact Q|]. apply L, Q.
  - eexists _, _, _. split; [reflexivity|]. split; [split; [exact F|split; [lia|reflexivity]]|].
    assert (Q : restl (r :: l') i = flat_map (elem_bytes r) (seq i e) ++ restl (r :: l') (i + e)).
    { cbn [restl]. unfold rest. rewrite app_assoc, <- flat_map_app, <- seq_app. do 3 f_equal. lia. }
    split; [exact Q|]. apply L, Q.
Qed.

Lemma rest_pos es r l' i p : 0 < es -> st_ok es (r :: l') p i -> es <= length (restl (r :: l') i).
Proof.
  intros P (F & Hi & _). inversion F as [|? ? [Er _] _]; subst. cbn [restl]. unfold rest.
  rewrite app_length, flat_len, seq_length. nia.
Qed.

Lemma chain_loop_moves es : 0 < es -> forall fuel (m : mem V) src sp si dst dp di,
  st_ok es src sp si -> st_ok es dst dp di -> length (restl src si) = length (restl dst di) ->
  length (restl src si) < fuel * es ->
  chain_loop fuel es m src sp si dst dp di = moves m (combine (restl dst di) (restl src si)).
Proof.
  intros Pe. induction fuel as [|f IH]; intros m src sp si dst dp di Ss Sd Le Lf; [cbn in Lf; lia|].
  destruct src as [|s src'], dst as [|d dst'].
  - reflexivity.
  - pose proof (rest_pos es d dst' di dp Pe Sd). cbn [restl length] in *. lia.
  - pose proof (rest_pos es s src' si sp Pe Ss). cbn [restl length] in *. lia.
  - destruct Ss as (Fs & Is & Ps). destruct Sd as (Fd & Id & Pd). cbn [chain_loop].
    assert (Es : esz s = es) by (inversion Fs as [|? ? [? _] _]; assumption).
    assert (Ed : esz d = es) by (inversion Fd as [|? ? [? _] _]; assumption).
    assert (STEP : forall e, 0 < e -> si + e <= len s -> di + e <= len d ->
       (e = 1 \/ (stride s = 1%Z /\ stride d = 1%Z)) ->
       (m' <- memcpy m dp sp (e * es) ;;
        a <- advance es s src' (sp + Z.of_nat (e * es) * stride s)%Z (si + e) ;;
        b <- advance es d dst' (dp + Z.of_nat (e * es) * stride d)%Z (di + e) ;;
        chain_loop f es m' (fst (fst a)) (snd (fst a)) (snd a) (fst (fst b)) (snd (fst b)) (snd b)) =
       moves m (combine (restl (d :: dst') di) (restl (s :: src') si))).
    { intros e He1 He2 He3 Hu.
      destruct (advance_ok es s src' (sp + Z.of_nat (e * es) * stride s)%Z si e Fs He2) as (l2 & p2 & i2 & A1 & A2 & A3 & A4);
        [rewrite Ps, Nat2Z.inj_mul, Nat2Z.inj_add; ring|exact He1|].
      destruct (advance_ok es d dst' (dp + Z.of_nat (e * es) * stride d)%Z di e Fd He3) as (l3 & p3 & i3 & B1 & B2 & B3 & B4);
        [rewrite Pd, Nat2Z.inj_mul, Nat2Z.inj_add; ring|exact He1|].
      assert (X : area dp (e * es) = flat_map (elem_bytes d) (seq di e) /\ area sp (e * es) = flat_map (elem_bytes s) (seq si e)).
      { destruct Hu as [->|[U1 U2]].
        - cbn [seq flat_map]. rewrite !app_nil_r, !elem_area, Es, Ed, Nat.mul_1_l, Ps, Pd. auto.
        - rewrite (unit_area d), (unit_area s) by assumption. rewrite Es, Ed, Ps, Pd, U1, U2, !Z.mul_1_r. auto. }
      destruct X as [X1 X2].
      pose proof (rest_pos es s src' si sp Pe (conj Fs (conj Is Ps))) as RP.
      rewrite A1, B1, A3, B3, combine_app by (rewrite !flat_len, !seq_length, Es, Ed; reflexivity).
      rewrite moves_app, memcpy_area, X1, X2. destruct (moves m _) as [m1|]; cbn [bind fst snd]; [|reflexivity].
      apply IH; auto; [lia|]. rewrite A4. nia. }
    destruct ((stride s =? 1)%Z && (stride d =? 1)%Z) eqn:U.
    + apply andb_prop in U as [U1 U2]. apply Z.eqb_eq in U1, U2.
      assert ((si <=? len s) && (di <=? len d) = true) as -> by (apply andb_true_intro; split; apply Nat.leb_le; lia).
      cbn [bind]. apply STEP; auto; lia.
    + cbn [bind]. apply STEP; auto; lia.
Qed.

Lemma chain_lemma (m : mem V) c d es : 0 < es -> recs c <> [] ->
  Forall (fun r => esz r = es /\ 0 < len r) (recs c) -> Forall (fun r => esz r = es /\ 0 < len r) (recs d) ->
  length (bytes c) = length (bytes d) ->
  NoDup (bytes d) -> readable m (bytes c) -> readable m (bytes d) -> disjoint (bytes d) (bytes c) ->
  exists n m', (forall fuel, n <= fuel -> copy_into_chain fuel m c d = Some m') /\
    (forall k a b, nth_error (bytes c) k = Some a -> nth_error (bytes d) k = Some b -> m' b = m a) /\
    (forall x, ~ In x (bytes d) -> m' x = m x).
Proof.
  intros Pe Nc Fc Fd Le N Rc Rd D.
  destruct (combine_map (bytes d) (bytes c)) as [C1 C2]; [symmetry; exact Le|].
  destruct (moves_spec (combine (bytes d) (bytes c)) m) as (m' & Em & M1 & M2); rewrite ?C1, ?C2; auto.
  exists (S (length (bytes c))), m'. rewrite C1 in M2. split; [|split; [|exact M2]].
  2:{ intros k a b Ea Eb. apply M1. eapply combine_in_nth; eassumption. }
  intros fuel Hf. unfold copy_into_chain.
  assert (RL : forall l, restl l 0 = flat_map rec_bytes l).
  { intros [|r l]; [reflexivity|]. cbn [restl flat_map]. unfold rest, rec_bytes. rewrite Nat.sub_0_r. reflexivity. }
  unfold bytes in *. destruct (recs c) as [|s sl] eqn:Ec; [contradiction|]. destruct (recs d) as [|t tl] eqn:Et.
  { exfalso. inversion Fc as [|? ? [E1 E2] _]; subst. cbn [flat_map] in Le. rewrite app_length in Le.
    unfold rec_bytes in Le. rewrite flat_len, seq_length in Le. cbn [length] in Le.
    assert (0 < len s * esz s) by (apply Nat.mul_pos_pos; lia). lia. }
  inversion Fc as [|? ? [E1 E2] _]; subst. inversion Fd as [|? ? [E3 E4] _]; subst.
  rewrite E3, Nat.eqb_refl. rewrite chain_loop_moves; auto.
  - rewrite !RL. exact Em.
  - split; [exact Fc|]. split; [exact E2|lia].
  - split; [exact Fd|]. split; [exact E4|lia].
  - rewrite !RL. exact Le.
  - rewrite RL. nia.
Qed.
End P.
