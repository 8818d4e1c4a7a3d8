(** Lemmas about the iterators of Iter.v. *)
From Coq Require Import ZArith List Lia Bool Arith.
From Verif Require Import Base Iter.
Import ListNotations.
Open Scope Z_scope.

Lemma P32 : 2 ^ 32 = 4294967296. Proof. reflexivity. Qed.
Lemma P31 : 2 ^ 31 = 2147483648. Proof. reflexivity. Qed.

Lemma u32_add a b : u32 (u32 a + b) = u32 (a + b).
Proof. unfold u32. apply Zplus_mod_idemp_l. Qed.
Lemma u32_add_r a b : u32 (a + u32 b) = u32 (a + b).
Proof. unfold u32. apply Zplus_mod_idemp_r. Qed.
Lemma u32_sub_r a b : u32 (a - u32 b) = u32 (a - b).
Proof. unfold u32. apply Zminus_mod_idemp_r. Qed.
Lemma u32_sub_l a b : u32 (u32 a - b) = u32 (a - b).
Proof. unfold u32. apply Zminus_mod_idemp_l. Qed.
Lemma u32_id a : 0 <= a < 4294967296 -> u32 a = a.
Proof. intros H. unfold u32. apply Z.mod_small. rewrite P32. exact H. Qed.
Lemma u64_add a b : u64 (u64 a + b) = u64 (a + b).
Proof. unfold u64. apply Zplus_mod_idemp_l. Qed.
Lemma u64_sub a b : u64 (u64 a - b) = u64 (a - b).
Proof. unfold u64. apply Zminus_mod_idemp_l. Qed.
Lemma u64_id a : 0 <= a < 18446744073709551616 -> u64 a = a.
Proof. intros H. unfold u64. apply Z.mod_small. unfold W64. exact H. Qed.

Lemma s32_int n : int n -> s32 n = n.
Proof.
  unfold int, s32. intros H. rewrite P32, P31.
  destruct (Z_lt_le_dec n 0) as [L | L].
  - assert (E : n mod 4294967296 = n + 4294967296).
    { symmetry. apply (Z.mod_unique_pos _ _ (-1)); lia. }
    rewrite E. replace (n + 4294967296 <? 2147483648) with false by (symmetry; apply Z.ltb_ge; lia). lia.
  - rewrite Z.mod_small by lia. replace (n <? 2147483648) with true by (symmetry; apply Z.ltb_lt; lia). reflexivity.
Qed.

Lemma s32_u32 z : s32 (u32 z) = s32 z.
Proof. unfold s32, u32. rewrite Z.mod_mod by (rewrite P32; lia). reflexivity. Qed.

Lemma s32_u64 z : s32 (u64 z) = s32 z.
Proof.
  unfold s32, u64. assert (E : (z mod W64) mod 2 ^ 32 = z mod 2 ^ 32).
  { unfold W64. change 18446744073709551616 with (2 ^ 32 * 4294967296).
    rewrite Z.rem_mul_r by (rewrite ?P32; lia). rewrite (Z.mul_comm (2 ^ 32)).
    rewrite Z.mod_add by (rewrite P32; lia). apply Z.mod_mod. rewrite P32. lia. }
  rewrite E. reflexivity.
Qed.

(** ** Values *)
Lemma vi_ext i j : i_cur i = i_cur j -> i_delta i = i_delta j -> i = j.
Proof. destruct i, j. cbn. intros -> ->. reflexivity. Qed.

Lemma vi_moves i : proc (i_cur i) ->
  vi_prev (vi_next i) = i /\ vi_next (vi_prev i) = i /\ vi_advance i 1 = vi_next i /\ vi_retreat i 1 = vi_prev i /\
  (forall a b, vi_advance (vi_advance i a) b = vi_advance i (a + b)) /\
  (forall a, vi_retreat (vi_advance i a) a = i) /\
  (forall n, proc (i_cur i + n * i_delta i) -> vi_get (vi_advance i n) = Some (i_cur i + n * i_delta i)).
Proof.
  destruct i as [c d]. unfold proc. cbn [i_cur i_delta]. intros H.
  unfold vi_prev, vi_next, vi_advance, vi_retreat, vi_get. cbn [i_cur i_delta].
  repeat split.
  - f_equal. rewrite u32_sub_l. rewrite u32_id; lia.
  - f_equal. rewrite u32_add. rewrite u32_id; lia.
  - f_equal. rewrite u32_add_r. f_equal. lia.
  - f_equal. rewrite u32_sub_r. f_equal. lia.
  - intros a b. f_equal. rewrite u32_add_r, u32_add, !u32_add_r.
    replace (c + u32 (a * d) + b * d) with ((c + b * d) + u32 (a * d)) by lia. rewrite u32_add_r. f_equal. lia.
  - intros a. f_equal. rewrite u32_sub_l, u32_sub_r.
    replace (c + u32 (a * d) - a * d) with ((c - a * d) + u32 (a * d)) by lia. rewrite u32_add_r. rewrite u32_id; lia.
  - intros n K. f_equal. rewrite u32_add_r. apply u32_id. exact K.
Qed.

Lemma vi_diff_one c n : proc c -> int n -> vi_diff (vi_advance (VI c 1) n) (VI c 1) = Some n.
Proof.
  intros H K. unfold vi_diff, vi_advance. cbn [i_cur i_delta Z.eqb].
  rewrite u32_sub_l, Z.mul_1_r. f_equal. rewrite Z.div_1_r, s32_u32.
  replace (c + u32 n - c) with (u32 n) by lia. rewrite s32_u32. apply s32_int. exact K.
Qed.

Lemma vi_diff_step c d n : 0 < d -> int n -> 0 <= n -> n * d < 4294967296 ->
  vi_diff (vi_advance (VI c d) n) (VI c d) = Some n.
Proof.
  intros D K N L. unfold vi_diff, vi_advance. cbn [i_cur i_delta].
  replace (d =? 0) with false by (symmetry; apply Z.eqb_neq; lia).
  rewrite u32_sub_l. replace (c + u32 (n * d) - c) with (u32 (n * d)) by lia.
  rewrite (u32_id (n * d)) by lia. rewrite (u32_id (n * d)) by lia.
  rewrite Z.div_mul by lia. rewrite s32_int by exact K. reflexivity.
Qed.

(** ** Vectors *)
Lemma wi_moves i : on i ->
  wi_prev (wi_next i) = i /\ wi_next (wi_prev i) = i /\ wi_advance i 1 = wi_next i /\ wi_retreat i 1 = wi_prev i /\
  (forall a b, wi_advance (wi_advance i a) b = wi_advance i (a + b)) /\
  (forall a, wi_retreat (wi_advance i a) a = i) /\
  (forall n, int n -> wi_diff (wi_advance i n) i = n).
Proof.
  destruct i as [b l x]. unfold on. cbn [w_idx]. intros H.
  unfold wi_prev, wi_next, wi_advance, wi_retreat, wi_diff. cbn [w_block w_data w_idx].
  repeat split.
  - f_equal. rewrite u64_sub. rewrite u64_id; lia.
  - f_equal. rewrite u64_add. rewrite u64_id; lia.
  - intros a c. f_equal. rewrite u64_add. f_equal. lia.
  - intros a. f_equal. rewrite u64_sub. rewrite u64_id; lia.
  - intros n K. rewrite s32_u64. replace (u64 (x + n) - x) with (u64 (x + n) + - x) by lia.
    rewrite <- s32_u64, u64_add, s32_u64. replace (x + n + - x) with n by lia. apply s32_int. exact K.
Qed.

Lemma wi_get_at b l n : 0 <= n < Z.of_nat (length l) -> Z.of_nat (length l) < 18446744073709551616 ->
  wi_get (wi_advance (WI b l 0) n) = nth_error l (Z.to_nat n).
Proof.
  intros H L. unfold wi_get, wi_advance. cbn [w_block w_data w_idx]. rewrite Z.add_0_l, u64_id by lia.
  replace (0 <=? n) with true by (symmetry; apply Z.leb_le; lia).
  replace (n <? Z.of_nat (length l)) with true by (symmetry; apply Z.ltb_lt; lia). reflexivity.
Qed.

Lemma wi_past b l i : Z.of_nat (length l) <= w_idx i -> w_data i = l -> w_block i = b -> wi_get i = None.
Proof.
  intros H E _. unfold wi_get. rewrite E. replace (w_idx i <? Z.of_nat (length l)) with false by (symmetry; apply Z.ltb_ge; lia).
  rewrite andb_false_r. reflexivity.
Qed.

(** ** Ranges *)
Lemma one_visit p fuel : proc p -> (1 <= fuel)%nat ->
  visit viter vi_ne vi_next vi_get fuel (one_begin p) (one_end p) = Some [p] /\
  forall q, has_processor viter vi_ne vi_next vi_get fuel (one_begin p) (one_end p) q = Some (p =? q).
Proof.
  intros H F. destruct fuel as [|n]; [lia|].
  assert (N : vi_ne (one_begin p) (one_end p) = true).
  { unfold vi_ne, one_begin, one_end. cbn [i_cur i_delta].
    assert (E : p <> u32 (p + 1)).
    { unfold proc in H. destruct (Z.eq_dec p 4294967295) as [-> | K]; [vm_compute; discriminate|]. rewrite u32_id; lia. }
    apply Z.eqb_neq in E. rewrite E. reflexivity. }
  assert (S : vi_ne (vi_next (one_begin p)) (one_end p) = false).
  { unfold vi_ne, vi_next, one_begin, one_end. cbn [i_cur i_delta]. rewrite Z.eqb_refl. reflexivity. }
  split.
  - cbn [visit]. rewrite N. cbn [vi_get bind one_begin i_cur].
    change (VI p 1) with (one_begin p). destruct n; cbn [visit]; rewrite S; reflexivity.
  - intros q. cbn [has_processor]. rewrite N. cbn [vi_get bind one_begin i_cur].
    change (VI p 1) with (one_begin p). destruct (p =? q) eqn:E; [reflexivity|].
    destruct n; cbn [has_processor]; rewrite S; reflexivity.
Qed.

Lemma set_visit_from b b' : forall rest done fuel,
  Z.of_nat (length (done ++ rest)) < 18446744073709551616 -> (length rest <= fuel)%nat ->
  let i := WI b (done ++ rest) (Z.of_nat (length done)) in
  visit witer wi_ne wi_next wi_get fuel i (set_end b' (done ++ rest)) = Some rest /\
  forall q, has_processor witer wi_ne wi_next wi_get fuel i (set_end b' (done ++ rest)) q = Some (existsb (fun x => x =? q) rest).
Proof.
  induction rest as [|x rest IH]; intros done fuel L F; cbn zeta.
  - assert (N : wi_ne (WI b (done ++ []) (Z.of_nat (length done))) (set_end b' (done ++ [])) = false).
    { unfold wi_ne, set_end. cbn [w_block w_idx]. rewrite Nat.eqb_refl, app_nil_r, Z.eqb_refl. reflexivity. }
    split; [|intros q]; destruct fuel; cbn [visit has_processor]; rewrite N; reflexivity.
  - destruct fuel as [|n]; [cbn in F; lia|]. rewrite app_length in L. cbn [length] in L, F.
    assert (N : wi_ne (WI b (done ++ x :: rest) (Z.of_nat (length done))) (set_end b' (done ++ x :: rest)) = true).
    { unfold wi_ne, set_end. cbn [w_block w_idx]. rewrite Nat.eqb_refl, app_length. cbn [length negb orb].
      assert (E : (Z.of_nat (length done) =? Z.of_nat (length done + S (length rest))) = false) by (apply Z.eqb_neq; lia).
      rewrite E. reflexivity. }
    assert (G : wi_get (WI b (done ++ x :: rest) (Z.of_nat (length done))) = Some x).
    { unfold wi_get. cbn [w_data w_idx]. rewrite app_length. cbn [length].
      replace (0 <=? Z.of_nat (length done)) with true by (symmetry; apply Z.leb_le; lia).
      replace (Z.of_nat (length done) <? Z.of_nat (length done + S (length rest))) with true by (symmetry; apply Z.ltb_lt; lia).
      cbn [andb]. rewrite Nat2Z.id, nth_error_app2 by lia. rewrite Nat.sub_diag. reflexivity. }
    assert (S' : wi_next (WI b (done ++ x :: rest) (Z.of_nat (length done))) =
                 WI b ((done ++ [x]) ++ rest) (Z.of_nat (length (done ++ [x])))).
    { unfold wi_next. cbn [w_block w_data w_idx]. rewrite <- app_assoc. cbn [app]. f_equal.
      rewrite app_length. cbn [length]. rewrite u64_id by lia. lia. }
    assert (T : (done ++ x :: rest) = ((done ++ [x]) ++ rest)) by (rewrite <- app_assoc; reflexivity).
    destruct (IH (done ++ [x]) n) as [V P].
    { rewrite !app_length. cbn [length]. lia. } { lia. }
    cbn zeta in V, P. split.
    + cbn [visit]. rewrite N, G, S'. cbn [bind]. rewrite T, V. reflexivity.
    + intros q. cbn [has_processor]. rewrite N, G, S'. cbn [bind existsb]. destruct (x =? q); [reflexivity|].
      cbn [orb]. rewrite T. apply P.
Qed.

Lemma set_visit b b' ps fuel : Z.of_nat (length ps) < 18446744073709551616 -> (length ps <= fuel)%nat ->
  visit witer wi_ne wi_next wi_get fuel (set_begin b ps) (set_end b' ps) = Some ps /\
  forall q, has_processor witer wi_ne wi_next wi_get fuel (set_begin b ps) (set_end b' ps) q =
            Some (existsb (fun x => x =? q) ps).
Proof. intros L F. apply (set_visit_from b b' ps [] fuel L F). Qed.

Lemma set_has b b' ps fuel q : Z.of_nat (length ps) < 18446744073709551616 -> (length ps <= fuel)%nat ->
  exists r, has_processor witer wi_ne wi_next wi_get fuel (set_begin b ps) (set_end b' ps) q = Some r /\
            (r = true <-> In q ps).
Proof.
  intros L F. exists (existsb (fun x => x =? q) ps). split; [apply set_visit; assumption|].
  rewrite existsb_exists. split.
  - intros [x [I E]]. apply Z.eqb_eq in E. subst. exact I.
  - intros I. exists q. split; [exact I|apply Z.eqb_refl].
Qed.

Lemma vi_order i n : proc (i_cur i) -> 0 < i_delta i -> proc (i_cur i + n * i_delta i) ->
  vi_lt i (vi_advance i n) = (0 <? n) /\ vi_eq i (vi_advance i n) = (n =? 0) /\ vi_ne i (vi_advance i n) = negb (n =? 0).
Proof.
  destruct i as [c d]. unfold proc. cbn [i_cur i_delta]. intros H D K.
  unfold vi_lt, vi_eq, vi_ne, vi_advance. cbn [i_cur i_delta]. rewrite u32_add_r, u32_id by exact K.
  rewrite Z.eqb_refl, andb_true_r, orb_false_r.
  assert (E : (c =? c + n * d) = (n =? 0)) by (destruct (Z.eqb_spec n 0) as [-> | N]; [apply Z.eqb_eq; lia|apply Z.eqb_neq; nia]).
  rewrite E. repeat split. destruct (Z.ltb_spec 0 n); [apply Z.ltb_lt; nia|apply Z.ltb_ge; nia].
Qed.

Lemma wi_order i n : on i -> 0 <= w_idx i + n < 18446744073709551616 ->
  wi_lt i (wi_advance i n) = (0 <? n) /\ wi_eq i (wi_advance i n) = (n =? 0) /\ wi_ne i (wi_advance i n) = negb (n =? 0).
Proof.
  destruct i as [b l x]. unfold on. cbn [w_idx]. intros H K.
  unfold wi_lt, wi_eq, wi_ne, wi_advance. cbn [w_block w_data w_idx]. rewrite u64_id by exact K. rewrite Nat.eqb_refl. cbn [andb negb orb].
  assert (E : (x =? x + n) = (n =? 0)) by (destruct (Z.eqb_spec n 0) as [-> | N]; [apply Z.eqb_eq; lia|apply Z.eqb_neq; lia]).
  rewrite E. repeat split. destruct (Z.ltb_spec 0 n); [apply Z.ltb_lt; lia|apply Z.ltb_ge; lia].
Qed.
