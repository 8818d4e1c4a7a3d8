(** Lemmas about FileIO.v. *)
From Coq Require Import String.
From Coq Require Import ZArith List Lia Bool Arith.
From Verif Require Import Base Domain DomainProofs Traversal Layout LayoutProofs Views ViewsProofs Dda DdaProofs FileIO.
Import ListNotations.
Local Open Scope Z_scope.

(** ** Row-major positions *)
Definition prodz (l : list Z) : Z := fold_right Z.mul 1 l.
Fixpoint unrank (ext : list Z) (k : Z) : list Z :=
  match ext with [] => [] | _ :: r => k / prodz r :: unrank r (k mod prodz r) end.
Definition rowrank (ext i : list Z) : Z := rank (seq 0 (length ext)) ext i.

Lemma prodz_pos l : Forall (fun n => 0 < n) l -> 0 < prodz l.
Proof. induction 1; cbn; [lia|]. fold (prodz l). nia. Qed.

Lemma unrank_range ext : Forall (fun n => 0 < n) ext -> forall k, 0 <= k < prodz ext -> in_range ext (unrank ext k).
Proof.
  induction 1 as [|n r Hn Hr IH]; intros k Hk; cbn [unrank]; [constructor|].
  pose proof (prodz_pos r Hr) as P. change (prodz (n :: r)) with (n * prodz r) in Hk. constructor.
  - split; [apply Z.div_pos; lia|]. apply Z.div_lt_upper_bound; lia.
  - apply IH. apply Z.mod_pos_bound. lia.
Qed.

Lemma rowrank_1 a x : rowrank [a] [x] = x. Proof. unfold rowrank, rank, at_. cbn. lia. Qed.
Lemma rowrank_2 a b x y : rowrank [a; b] [x; y] = x * b + y. Proof. unfold rowrank, rank, at_. cbn. lia. Qed.
Lemma rowrank_3 a b c x y z : rowrank [a; b; c] [x; y; z] = (x * b + y) * c + z. Proof. unfold rowrank, rank, at_. cbn. lia. Qed.

Lemma rank_unrank ext k : (1 <= length ext <= 3)%nat -> Forall (fun n => 0 < n) ext -> 0 <= k < prodz ext ->
  rowrank ext (unrank ext k) = k.
Proof.
  intros L F K. destruct ext as [|a [|b [|c [|? ?]]]]; cbn [length] in L; try lia; cbn [unrank prodz fold_right].
  - rewrite rowrank_1. apply Z.div_1_r.
  - rewrite rowrank_2. rewrite Z.mul_1_r, Z.div_1_r. inversion F as [|? ? _ F1]; inversion F1 as [|? ? Hb F2]; subst.
    rewrite (Z.div_mod k b) at 3 by lia. lia.
  - rewrite rowrank_3. rewrite !Z.mul_1_r, Z.div_1_r. inversion F as [|? ? _ F1]; inversion F1 as [|? ? Hb F2]; inversion F2 as [|? ? Hc F3]; subst.
    pose proof (Z.div_mod k (b * c) ltac:(nia)) as E1. set (k1 := k mod (b * c)) in *.
    pose proof (Z.div_mod k1 c ltac:(nia)) as E2. nia.
Qed.

Lemma unrank_rank ext : (1 <= length ext <= 3)%nat -> Forall (fun n => 0 < n) ext -> forall i, in_range ext i ->
  0 <= rowrank ext i < prodz ext /\ unrank ext (rowrank ext i) = i.
Proof.
  intros L F i R. destruct ext as [|a [|b [|c [|? ?]]]]; cbn [length] in L; try lia.
  - inr1 R x. rng R. rewrite rowrank_1. cbn. rewrite Z.div_1_r. split; [lia|reflexivity].
  - inr2 R x y. rng R. rewrite rowrank_2. cbn [unrank prodz fold_right]. rewrite !Z.mul_1_r, Z.div_1_r.
    split; [nia|]. f_equal; [|f_equal].
    + rewrite Z.div_add_l by lia. rewrite Z.div_small by lia. lia.
    + rewrite Z.add_comm, Z.mod_add by lia. apply Z.mod_small. lia.
  - inr3 R x y z. rng R. rewrite rowrank_3. cbn [unrank prodz fold_right]. rewrite !Z.mul_1_r, Z.div_1_r.
    assert (B : 0 <= y * c + z < b * c) by nia.
    replace ((x * b + y) * c + z) with (x * (b * c) + (y * c + z)) by ring.
    assert (D1 : (x * (b * c) + (y * c + z)) / (b * c) = x) by (rewrite Z.div_add_l by nia; rewrite Z.div_small by lia; lia).
    assert (M1 : (x * (b * c) + (y * c + z)) mod (b * c) = y * c + z) by (rewrite Z.add_comm, Z.mod_add by nia; apply Z.mod_small; lia).
    rewrite D1, M1. split; [nia|]. f_equal. f_equal; [|f_equal].
    + rewrite Z.div_add_l by lia. rewrite Z.div_small by lia. lia.
    + rewrite Z.add_comm, Z.mod_add by lia. apply Z.mod_small. lia.
Qed.

Lemma count_prodz ext : count ext = Z.to_nat (prodz ext). Proof. reflexivity. Qed.

(** ** Windows *)
Section El.
Context {V : Type}.
Implicit Types (M : @mems V).

Lemma dense_layout ext : (1 <= length ext <= 3)%nat -> exists l, make_layout (seq 0 (length ext)) P_dense ext = Some l.
Proof. intros L. destruct ext as [|a [|b [|c [|? ?]]]]; cbn [length] in L; try lia; eexists; reflexivity. Qed.

Lemma dense_fits ext l : Forall (fun n => 0 < n) ext -> prodz ext < H64 -> make_layout (seq 0 (length ext)) P_dense ext = Some l -> fits l ext.
Proof.
  intros F P E. pose proof W64_H64 as HW. pose proof H64_pos as HH.
  destruct ext as [|a [|b [|c [|? ?]]]]; cbn in E; try discriminate; injection E as <-; cbn in P; intros d Hd; cbn [length] in Hd.
  - destruct d; [|lia]. cbn. lia.
  - inversion F as [|? ? Ha F1]; inversion F1 as [|? ? Hb F2]; subst.
    destruct d as [|[|d]]; [| |lia]; cbn; unfold at_; cbn; nia.
  - inversion F as [|? ? Ha F1]; inversion F1 as [|? ? Hb F2]; inversion F2 as [|? ? Hc F3]; subst.
    rewrite Z.mul_1_r in P.
    assert (b * c <= a * (b * c)) by nia. assert (c <= b * c) by nia.
    destruct d as [|[|[|d]]]; [| | |lia]; cbn; unfold at_, dim_; cbn; lia.
Qed.

Lemma size_len v : length (sizes v) = dim v.
Proof. unfold sizes. rewrite map_length, seq_length. reflexivity. Qed.

Variable fresh : applied -> mem V.
Hypothesis Fr : allocates fresh.

Lemma window_good o M : good_view o M ->
  exists w, window_of o = Some w /\ window_ok (o_view o) w (buffer_of fresh w) /\
    forall i, in_range (sizes (o_view o)) i -> addr (o_view o) w i = wptr (o_view o) w + rowrank (sizes (o_view o)) i.
Proof.
  intros (W & NR & Pos & ML & RE & PR & A). destruct (wf_dim _ W) as [D S].
  change 9223372036854775808 with H64 in RE, PR.
  assert (L : (1 <= length (sizes (o_view o)) <= 3)%nat) by (rewrite size_len; exact D).
  assert (EX : exists w, window_of o = Some w /\ window_ok (o_view o) w (buffer_of fresh w)).
  { unfold window_of, open_window. destruct (type_layout (o_order o) (o_packing o) (o_view o)) as [ord pk].
    destruct (dense_layout (sizes (o_view o)) L) as (l & El). rewrite size_len in El.
    assert (CL : copy_layout (dense_request (dim (o_view o))) ord (sizes (o_view o)) = Some l) by exact El.
    assert (OK : window_ok (o_view o) (InBuffer l) (buffer_of fresh (InBuffer l))).
    { split; [|exact (Fr l)]. split.
      - rewrite Forall_forall. intros n Hn. unfold sizes in Hn. apply in_map_iff in Hn as (d & <- & Hd). apply in_seq in Hd. apply S. lia.
      - left. exists (seq 0 (dim (o_view o))), P_dense. split; [exact El|]. apply dense_fits; [exact Pos|exact PR|]. rewrite size_len. exact El. }
    destruct (get_access _ ord pk (o_copy o)).
    - exists InBlock. split; [reflexivity|exact Logic.I].
    - destruct (is_compatible _ _ _ _ _ _ _); [exists InBlock; split; [reflexivity|exact Logic.I]|].
      rewrite CL. exists (InBuffer l). split; [reflexivity|exact OK].
    - rewrite CL. exists (InBuffer l). split; [reflexivity|exact OK]. }
  destruct EX as (w & E & OK). exists w. split; [exact E|]. split; [exact OK|].
  intros i R. unfold addr. f_equal.
  pose proof (open_promise (dense_request (dim (o_view o))) (o_order o) (o_packing o) (o_view o) (o_copy o) (o_base o) 0 (o_elem o) w
    W ML RE PR ltac:(cbn; discriminate) E) as Q. cbn [dense_request r_order r_packing promise] in Q.
  rewrite (Q i R). unfold rowrank. rewrite size_len. reflexivity.
Qed.

(** ** Linear access is indexed access *)
Lemma mapM_nth {A B} (f : A -> option B) l ys : mapM f l = Some ys -> length ys = length l /\
  forall k x, nth_error l k = Some x -> nth_error ys k = f x.
Proof.
  revert ys. induction l as [|a l IH]; intros ys E; cbn [mapM] in E.
  - injection E as <-. split; [reflexivity|]. intros [|k] x; discriminate.
  - destruct (f a) as [y|] eqn:Ea; [|discriminate]. cbn [bind] in E. destruct (mapM f l) as [zs|]; [|discriminate].
    cbn [bind] in E. injection E as <-. destruct (IH zs eq_refl) as [L N]. split; [cbn; lia|].
    intros [|k] x Hx; cbn in *; [injection Hx as <-; symmetry; exact Ea|]. apply N. exact Hx.
Qed.

Lemma run_reads fuel P c v w (s : @state V) (ks : list nat) (ix : nat -> list Z) :
  (forall k, In k ks -> addr v w (ix k) = wptr v w + Z.of_nat k) ->
  run fuel P c v w s (map (fun k => PRead (ix k)) ks) = (xs <- mapM (peek v w s) ks ;; Some (s, xs)).
Proof.
  induction ks as [|k ks IH]; intros H; [reflexivity|]. cbn [map run mapM exec].
  unfold peek at 1. rewrite <- (H k (or_introl eq_refl)).
  destruct w; cbn [bind]; (destruct (mload _ _) as [x|]; cbn [bind fst snd]; [|reflexivity]);
    rewrite IH by (intros; apply H; right; assumption); destruct (mapM _ ks); reflexivity.
Qed.

Lemma run_writes fuel P c v w (ix : nat -> list Z) xs : forall (s : @state V) k,
  (forall j, (k <= j < k + length xs)%nat -> addr v w (ix j) = wptr v w + Z.of_nat j) ->
  run fuel P c v w s (map (fun p => PWrite (ix (fst p)) (snd p)) (combine (seq k (length xs)) xs)) =
  (s' <- poke_all v w s k xs ;; Some (s', [])).
Proof.
  induction xs as [|x xs IH]; intros s k H; [reflexivity|]. cbn [length seq combine map run poke_all exec fst snd].
  unfold poke. rewrite <- (H k) by (cbn; lia).
  destruct w; (destruct (mstore _ _ x) as [m|]; cbn [bind fst snd]; [|reflexivity]);
    rewrite IH by (intros; apply H; cbn [length]; lia); destruct (poke_all _ _ _ (S k) xs); reflexivity.
Qed.

Lemma Forall2_map_l {A B C} (R : B -> C -> Prop) (f : A -> B) l l' : Forall2 R (map f l) l' <-> Forall2 (fun a c => R (f a) c) l l'.
Proof.
  split.
  - revert l'. induction l as [|a l IH]; intros l' H; inversion H; subst; constructor; auto.
  - induction 1; constructor; auto.
Qed.

Lemma reads_preads (f : @elems V) (ix : list (list Z)) : reads f (map PRead ix) = map f ix.
Proof. induction ix as [|i ix IH]; [reflexivity|]. cbn [map reads]. f_equal. exact IH. Qed.

Lemma Forall2_nth_error {A B} (R : A -> B -> Prop) l l' : Forall2 R l l' ->
  forall k a b, nth_error l k = Some a -> nth_error l' k = Some b -> R a b.
Proof.
  induction 1 as [|a y l l' H F IH]; intros [|k] p q Np Nq; try discriminate; cbn in *.
  - injection Np as <-. injection Nq as <-. exact H.
  - exact (IH k p q Np Nq).
Qed.

Lemma linear_read_ok o M : good_view o M ->
  exists n, forall fuel, (n <= fuel)%nat -> exists xs,
    linear_read fresh fuel o M (count (sizes (o_view o))) = Some xs /\ length xs = count (sizes (o_view o)) /\
    forall i, in_range (sizes (o_view o)) i -> nth_error xs (Z.to_nat (rowrank (sizes (o_view o)) i)) = element o M i.
Proof.
  intros G. destruct (window_good o M G) as (w & Ew & OK & AD). destruct G as (W & NR & Pos & ML & RE & PR & A).
  set (v := o_view o) in *. set (ext := sizes v) in *.
  destruct (wf_dim _ W) as [D S]. assert (L : (1 <= length ext <= 3)%nat) by (unfold ext; rewrite size_len; exact D).
  pose proof (prodz_pos ext Pos) as PP.
  set (ix := fun k => unrank ext (Z.of_nat k)). set (ks := seq 0 (count ext)).
  assert (IR : forall k, In k ks -> in_range ext (ix k) /\ rowrank ext (ix k) = Z.of_nat k).
  { intros k Hk. apply in_seq in Hk. rewrite count_prodz in Hk. unfold ix. split; [apply unrank_range|apply rank_unrank]; auto; lia. }
  destruct (session_lemma {| p_in := true; p_out := false |} true v w (M (o_mem o)) (buffer_of fresh w)
    (map (fun k => PRead (ix k)) ks) W NR OK A) as (n & Hn).
  { apply Forall_forall. intros p Hp. apply in_map_iff in Hp as (k & <- & Hk). cbn. apply IR. exact Hk. }
  exists n. intros fuel Hf. destruct (Hn fuel Hf) as (m' & rs & E & F2 & _). unfold session in E.
  unfold linear_read. rewrite Ew. cbn [bind]. fold v.
  destruct (open fuel _ v w _ _) as [s|]; [|discriminate]. cbn [bind] in E |- *.
  rewrite (run_reads _ _ _ _ _ _ ks ix) in E by (intros k Hk; rewrite AD by (apply IR; exact Hk); f_equal; apply IR; exact Hk).
  fold ks. destruct (mapM (peek v w s) ks) as [xs|] eqn:Em; [|discriminate]. cbn [bind fst snd] in E.
  destruct (sync_out _ _ _ _ _ _) as [s'|]; [|discriminate]. cbn [bind] in E. injection E as E1 E2. subst rs.
  exists xs. split; [reflexivity|]. destruct (mapM_nth _ _ _ Em) as [Lx _]. unfold ks in Lx. rewrite seq_length in Lx. split; [exact Lx|].
  intros i R. destruct (unrank_rank ext L Pos i R) as [B U]. set (k := Z.to_nat (rowrank ext i)).
  assert (Hk : (k < count ext)%nat) by (rewrite count_prodz; unfold k; lia).
  cbn [p_in] in F2. rewrite <- (map_map ix PRead ks) in F2.
  rewrite reads_preads, Forall2_map_l, Forall2_map_l in F2.
  assert (Nk : nth_error ks k = Some k).
  { unfold ks. rewrite (nth_error_nth' _ 0%nat) by (rewrite seq_length; exact Hk). rewrite seq_nth by exact Hk. reflexivity. }
  destruct (nth_error xs k) as [x|] eqn:Ex; [|apply nth_error_None in Ex; lia].
  assert (AG : agrees (get v (M (o_mem o)) (ix k)) x).
  { exact (Forall2_nth_error _ _ _ F2 k k x Nk Ex). }
  unfold ix in AG. unfold k in AG. rewrite Z2Nat.id in AG by lia. rewrite U in AG.
  destruct (get_def v (M (o_mem o)) i W R A) as (y & Ey). unfold element. fold v. rewrite Ey. f_equal. apply AG. exact Ey.
Qed.

Lemma after_writes (ix : nat -> list Z) xs : forall (f : @elems V) k,
  (forall a b, (k <= a < k + length xs)%nat -> (k <= b < k + length xs)%nat -> ix a = ix b -> a = b) ->
  forall j x, nth_error xs j = Some x ->
  after f (map (fun p => PWrite (ix (fst p)) (snd p)) (combine (seq k (length xs)) xs)) (ix (k + j)%nat) = Some x.
Proof.
  induction xs as [|y xs IH]; intros f k Inj j x Hj; [destruct j; discriminate|].
  cbn [length seq combine map after fst snd]. destruct j as [|j].
  - cbn in Hj. injection Hj as ->. replace (k + 0)%nat with k by lia.
    assert (Q : forall l (g : @elems V), (forall p, In p l -> (k < fst p < k + length (x :: xs))%nat) -> g (ix k) = Some x ->
      after g (map (fun p => PWrite (ix (fst p)) (snd p)) l) (ix k) = Some x).
    { induction l as [|p l IHl]; intros g Hp Hg; [exact Hg|]. cbn [map after]. apply IHl; [intros; apply Hp; right; assumption|].
      unfold set. destruct (list_eq_dec Z.eq_dec (ix k) (ix (fst p))) as [e|]; [|exact Hg].
      pose proof (Hp p (or_introl eq_refl)). apply Inj in e; cbn [length] in *; lia. }
    apply Q.
    + intros p Hp. destruct p as [a b]. apply in_combine_l in Hp. apply in_seq in Hp. cbn [fst length]. lia.
    + unfold set. destruct (list_eq_dec Z.eq_dec (ix k) (ix k)); congruence.
  - replace (k + S j)%nat with (S k + j)%nat by lia. apply IH; [|exact Hj].
    intros a b Ha Hb. apply Inj; cbn [length]; lia.
Qed.

Lemma poke_all_dirty v w (s : @state V) x xs k d d' :
  poke_all v w (mk (blk s) (buf s) d) k (x :: xs) = poke_all v w (mk (blk s) (buf s) d') k (x :: xs).
Proof. destruct w; reflexivity. Qed.

Lemma linear_write_ok o M : good_view o M ->
  exists n, forall fuel xs, (n <= fuel)%nat -> length xs = count (sizes (o_view o)) -> exists M',
    linear_write fresh fuel o M xs = Some M' /\
    (forall i, in_range (sizes (o_view o)) i -> element o M' i = nth_error xs (Z.to_nat (rowrank (sizes (o_view o)) i))) /\
    only_elements o M M'.
Proof.
  intros G. destruct (window_good o M G) as (w & Ew & OK & AD). destruct G as (W & NR & Pos & ML & RE & PR & A).
  destruct (indices_ok (o_view o) W) as (ixs & n & T & MI & _).
  set (v := o_view o) in *. set (ext := sizes v) in *.
  destruct (wf_dim _ W) as [D S]. assert (L : (1 <= length ext <= 3)%nat) by (unfold ext; rewrite size_len; exact D).
  pose proof (prodz_pos ext Pos) as PP.
  set (ix := fun k => unrank ext (Z.of_nat k)).
  exists n. intros fuel xs Hf Lx.
  assert (IR : forall k, (k < length xs)%nat -> in_range ext (ix k) /\ rowrank ext (ix k) = Z.of_nat k).
  { intros k Hk. rewrite Lx, count_prodz in Hk. unfold ix. split; [apply unrank_range|apply rank_unrank]; auto; lia. }
  destruct (session_ok v W NR fuel ixs (T fuel Hf) MI {| p_in := false; p_out := true |} true w (M (o_mem o)) (buffer_of fresh w)
    (map (fun p => PWrite (ix (fst p)) (snd p)) (combine (seq 0 (length xs)) xs)) OK A) as (m' & rs & E & _ & WR & RS & _).
  { apply Forall_forall. intros p Hp. apply in_map_iff in Hp as ([k x] & <- & Hk). apply in_combine_l in Hk. apply in_seq in Hk. cbn. apply IR. lia. }
  unfold session in E. unfold linear_write. rewrite Ew. cbn [bind]. fold v.
  destruct (open fuel _ v w _ _) as [s|]; [|discriminate]. cbn [bind] in E |- *.
  rewrite run_writes in E by (intros k Hk; rewrite AD by (apply IR; lia); f_equal; apply IR; lia).
  assert (Ed : poke_all v w (mk (blk s) (buf s) true) 0 xs = poke_all v w s 0 xs).
  { destruct xs as [|x xs]; [rewrite count_prodz in Lx; cbn in Lx; lia|]. destruct s as [bl bu di]. cbn [blk buf].
    exact (poke_all_dirty v w (mk bl bu di) x xs 0 true di). }
  rewrite Ed. destruct (poke_all v w s 0 xs) as [s1|]; [|discriminate]. cbn [bind fst snd] in E |- *.
  destruct (sync_out _ _ _ _ _ _) as [s2|]; [|discriminate]. cbn [bind] in E |- *. injection E as E1 E2. subst m' rs.
  eexists. split; [reflexivity|]. split.
  - intros i R. destruct (unrank_rank ext L Pos i R) as [B U]. set (k := Z.to_nat (rowrank ext i)).
    assert (Hk : (k < length xs)%nat) by (rewrite Lx, count_prodz; unfold k; lia).
    destruct (nth_error xs k) as [x|] eqn:Ex; [|apply nth_error_None in Ex; lia].
    unfold element, set_mem. rewrite Nat.eqb_refl. fold v. apply (WR eq_refl i x R). cbn [p_in].
    pose proof (after_writes ix xs (fun _ => None) 0) as Q.
    assert (Ei : ix (0 + k)%nat = i) by (unfold ix, k; cbn [Nat.add]; rewrite Z2Nat.id by lia; exact U).
    rewrite <- Ei. apply Q; [|exact Ex].
    intros a b Ha Hb Eab. pose proof (proj2 (IR a ltac:(lia))) as Ra. pose proof (proj2 (IR b ltac:(lia))) as Rb. rewrite Eab in Ra. lia.
  - split.
    + unfold set_mem. rewrite Nat.eqb_refl. exact RS.
    + intros b Hb. unfold set_mem. apply Nat.eqb_neq in Hb. rewrite Hb. reflexivity.
Qed.

(** ** HDF5 *)
Context (convert : vtype -> vtype -> option (V -> V)) (writable : string -> bool).

Lemma use_all_puts fuel M (items : list (string * vobj)) : forall f,
  Forall (fun p => exists xs, linear_read fresh fuel (snd p) M (count (sizes (o_view (snd p)))) = Some xs) items ->
  NoDup (map fst items) -> (forall n, In n (map fst items) -> f n = None) ->
  exists f', use_all fresh fuel convert Write f M (map (fun p => Put (fst p) (snd p)) items) = Some (Done, f', M) /\
    (forall n o xs, In (n, o) items -> linear_read fresh fuel o M (count (sizes (o_view o))) = Some xs ->
       f' n = Some {| d_type := o_type o; d_dims := sizes (o_view o); d_vals := xs |}) /\
    (forall n, ~ In n (map fst items) -> f' n = f n).
Proof.
  induction items as [|[n o] items IH]; intros f F ND FR.
  - exists f. split; [reflexivity|]. split; [intros n o xs []|reflexivity].
  - inversion F as [|? ? [xs Ex] F']; subst. inversion ND as [|? ? NI ND']; subst. cbn [fst snd] in *.
    cbn [map use_all use_dset fst snd]. unfold ds_write. rewrite Ex. cbn [bind]. rewrite (FR n (or_introl eq_refl)). cbn [bind].
    destruct (IH (set_dset f n {| d_type := o_type o; d_dims := sizes (o_view o); d_vals := xs |}) F' ND') as (f' & E & K & R).
    { intros n' Hn'. unfold set_dset. destruct (String.eqb_spec n' n) as [->|]; [contradiction|]. apply FR. right. exact Hn'. }
    exists f'. split; [exact E|]. split.
    + intros n' o' xs' [H|H] Ex'; [|exact (K n' o' xs' H Ex')]. injection H as <- <-. rewrite Ex in Ex'. injection Ex' as <-.
      rewrite R by exact NI. unfold set_dset. rewrite String.eqb_refl. reflexivity.
    + intros n' Hn'. cbn in Hn'. rewrite R by tauto. unfold set_dset. destruct (String.eqb_spec n' n) as [->|]; [exfalso; tauto|reflexivity].
Qed.

Lemma use_dset_read fuel f M op r f' M' : use_dset fresh fuel convert Read f M op = Some (r, f', M') -> f' = f.
Proof.
  destruct op as [n o|n o]; cbn [use_dset].
  - unfold ds_write. destruct (linear_read _ _ _ _ _); cbn [bind]; [|discriminate]. congruence.
  - destruct (f n); [|congruence]. destruct (ds_read _ _ _ _ _ _); cbn [bind]; [|discriminate]. congruence.
Qed.

Lemma scope_keeps fuel file n md ops d M r d' M' :
  file_scope fresh fuel convert writable n md ops (d, M) = Some (r, (d', M')) -> (md = Write -> n <> file) -> d' file = d file.
Proof.
  intros E K. unfold file_scope in E. destruct md.
  - destruct (d n) as [[|f]|]; try congruence. destruct (use_all _ _ _ _ _ _ _) as [[[? ?] ?]|]; cbn [bind] in E; [|discriminate]. congruence.
  - destruct (writable n); [|congruence]. destruct (use_all _ _ _ _ _ _ _) as [[[? ?] ?]|]; cbn [bind] in E; [|discriminate].
    injection E as _ <- _. unfold set_file. destruct (String.eqb_spec file n) as [->|]; [exfalso; apply K; reflexivity|reflexivity].
Qed.

Lemma program_keeps fuel file l : forall s s', Forall (keeps (V := V) file) l ->
  program fresh fuel convert writable l s = Some s' -> fst s' file = fst s file.
Proof.
  induction l as [|a l IH]; intros s s' F E; cbn [program] in E; [congruence|]. inversion F as [|? ? Ka F']; subst.
  destruct a as [n md ops|g].
  - destruct (file_scope _ _ _ _ _ _ _ s) as [[r s1]|] eqn:Es; [|discriminate]. cbn [bind snd] in E.
    rewrite (IH _ _ F' E). destruct s as [d M], s1 as [d1 M1]. cbn [fst]. eapply scope_keeps; [exact Es|].
    intros ->. exact Ka.
  - rewrite (IH _ _ F' E). reflexivity.
Qed.

Lemma eq_sizes_ok (l : list Z) : forallb (fun p => fst p =? snd p) (combine l l) = true.
Proof. induction l; cbn; [reflexivity|]. rewrite Z.eqb_refl. exact IHl. Qed.

Lemma eq_sizes_eq (l r : list Z) : length l = length r -> forallb (fun p => fst p =? snd p) (combine l r) = true -> l = r.
Proof.
  revert r. induction l as [|a l IH]; intros [|b r] L E; try discriminate; [reflexivity|]. cbn in E. apply andb_prop in E as [E1 E2].
  apply Z.eqb_eq in E1 as ->. f_equal. apply IH; [cbn in L; lia|exact E2].
Qed.

Lemma ds_read_ok o M n : good_view o M -> (forall fuel xs, (n <= fuel)%nat -> length xs = count (sizes (o_view o)) -> exists M',
    linear_write fresh fuel o M xs = Some M' /\
    (forall i, in_range (sizes (o_view o)) i -> element o M' i = nth_error xs (Z.to_nat (rowrank (sizes (o_view o)) i))) /\
    only_elements o M M') -> forall fuel d g, (n <= fuel)%nat -> d_dims d = sizes (o_view o) -> length (d_vals d) = count (sizes (o_view o)) ->
  convert (d_type d) (o_type o) = Some g ->
  exists M', ds_read fresh fuel convert d o M = Some (Done, M') /\
    (forall i, in_range (sizes (o_view o)) i -> element o M' i = option_map g (nth_error (d_vals d) (Z.to_nat (rowrank (sizes (o_view o)) i)))) /\
    only_elements o M M'.
Proof.
  intros G H fuel d g Hf Ed El Ec. unfold ds_read. rewrite Ed, Nat.eqb_refl, eq_sizes_ok, Ec. cbn [negb].
  destruct (H fuel (map g (d_vals d)) Hf) as (M' & E & X & O); [rewrite map_length; exact El|].
  exists M'. rewrite E. split; [reflexivity|]. split; [|exact O]. intros i R. rewrite (X i R), nth_error_map. reflexivity.
Qed.

Lemma uniform {A} (P : A -> nat -> Prop) (l : list A) : (forall x, In x l -> exists n, forall k, (n <= k)%nat -> P x k) ->
  exists n, forall k, (n <= k)%nat -> forall x, In x l -> P x k.
Proof.
  induction l as [|a l IH]; intros H; [exists 0%nat; intros k _ x []|].
  destruct (H a (or_introl eq_refl)) as (n1 & H1). destruct IH as (n2 & H2); [intros; apply H; right; assumption|].
  exists (Nat.max n1 n2). intros k Hk x [<-|Hx]; [apply H1; lia|apply H2; [lia|exact Hx]].
Qed.

Lemma write_then_read file items name (o o' : vobj) M d :
  writable file = true -> NoDup (map fst items) -> Forall (fun p => good_view (snd p) M) items -> In (name, o) items ->
  sizes (o_view o') = sizes (o_view o) -> forall g, convert (o_type o) (o_type o') = Some g ->
  exists n, forall fuel, (n <= fuel)%nat ->
  exists d1, file_scope fresh fuel convert writable file Write (map (fun p => Put (fst p) (snd p)) items) (d, M) = Some (Done, (d1, M)) /\
    forall other s2, Forall (keeps (V := V) file) other -> program fresh fuel convert writable other (d1, M) = Some s2 ->
    good_view o' (snd s2) ->
    exists n', forall fuel', (n' <= fuel')%nat -> exists M3, hdf5_read fresh fuel' convert writable file name o' s2 = Some (Done, (fst s2, M3)) /\
      (forall i, in_range (sizes (o_view o)) i -> element o' M3 i = option_map g (element o M i)) /\
      only_elements o' (snd s2) M3.
Proof.
  intros Wr ND F Hin Es g Ec.
  destruct (uniform (fun p fuel => exists xs, linear_read fresh fuel (snd p) M (count (sizes (o_view (snd p)))) = Some xs /\
      length xs = count (sizes (o_view (snd p))) /\
      forall i, in_range (sizes (o_view (snd p))) i -> nth_error xs (Z.to_nat (rowrank (sizes (o_view (snd p))) i)) = element (snd p) M i) items) as (n & Hn).
  { intros p Hp. rewrite Forall_forall in F. exact (linear_read_ok (snd p) M (F p Hp)). }
  exists n. intros fuel Hf. specialize (Hn fuel Hf).
  destruct (use_all_puts fuel M items (fun _ => None)) as (f' & E & K & _); [|exact ND|reflexivity|].
  { apply Forall_forall. intros p Hp. destruct (Hn p Hp) as (xs & Ex & _). exists xs. exact Ex. }
  unfold file_scope at 1. rewrite Wr, E. cbn [bind]. eexists. split; [reflexivity|].
  intros other s2 Fo Eo G2. destruct (linear_write_ok o' (snd s2) G2) as (n' & Hw). exists n'. intros fuel' Hf'.
  pose proof (program_keeps fuel file other _ _ Fo Eo) as Kp. cbn [fst] in Kp.
  unfold set_file in Kp. rewrite String.eqb_refl in Kp.
  destruct s2 as [d2 M2]. cbn [fst snd] in *. unfold hdf5_read, file_scope. rewrite Kp. cbn [use_all use_dset].
  destruct (Hn _ Hin) as (xs & Ex & Lx & Nx). cbn [snd] in Ex, Lx, Nx. rewrite (K name o xs Hin Ex).
  destruct (ds_read_ok o' M2 n' G2 Hw fuel' {| d_type := o_type o; d_dims := sizes (o_view o); d_vals := xs |} g Hf') as (M3 & E3 & X3 & O3);
    cbn [d_dims d_vals d_type]; try congruence.
  rewrite E3. cbn [bind fst snd]. exists M3. split; [reflexivity|]. split; [|exact O3].
  intros i R. cbn [d_vals] in X3. rewrite Es in X3. rewrite (X3 i R), (Nx i R). reflexivity.
Qed.

(** Refusals. *)
Lemma read_refused file name o d M fuel :
  (d file = None \/ d file = Some Foreign \/ exists f, d file = Some (Datasets f) /\
     (f name = None \/ exists ds, f name = Some ds /\ d_dims ds <> sizes (o_view o))) ->
  hdf5_read fresh fuel convert writable file name o (d, M) = Some (Threw, (d, M)).
Proof.
  intros [H|[H|(f & H & [K|(ds & K & N)])]]; unfold hdf5_read, file_scope; rewrite H; try reflexivity; cbn [use_all use_dset]; rewrite K; cbn [bind]; [reflexivity|].
  unfold ds_read. destruct (Nat.eqb_spec (length (d_dims ds)) (length (sizes (o_view o)))) as [L|]; cbn [negb]; [|reflexivity].
  destruct (forallb _ _) eqn:Ef; cbn [negb]; [|reflexivity]. exfalso. apply N. apply eq_sizes_eq; assumption.
Qed.

Lemma vtype_eqb_ok a b : vtype_eqb a b = true <-> a = b.
Proof. destruct a, b; cbn; split; congruence. Qed.

Lemma write_queries file items M d :
  writable file = true -> NoDup (map fst items) -> Forall (fun p => good_view (snd p) M) items ->
  exists n, forall fuel, (n <= fuel)%nat ->
  exists f, file_scope fresh fuel convert writable file Write (map (fun p => Put (fst p) (snd p)) items) (d, M) =
      Some (Done, (fun x => if String.eqb x file then Some (Datasets f) else d x, M)) /\
    (forall name, ~ In name (map fst items) -> f name = None) /\
    forall name o, In (name, o) items -> exists ds, f name = Some ds /\
      query_dimensionality ds = length (sizes (o_view o)) /\
      (forall D, query_extent ds D = if Nat.eqb D (length (sizes (o_view o))) then Some (sizes (o_view o)) else None) /\
      forall t, has_value_type ds t = true <-> t = o_type o.
Proof.
  intros Wr ND F.
  destruct (uniform (fun p fuel => exists xs, linear_read fresh fuel (snd p) M (count (sizes (o_view (snd p)))) = Some xs) items) as (n & Hn).
  { intros p Hp. rewrite Forall_forall in F. destruct (linear_read_ok (snd p) M (F p Hp)) as (n & H). exists n. intros k Hk.
    destruct (H k Hk) as (xs & E & _). exists xs. exact E. }
  exists n. intros fuel Hf. specialize (Hn fuel Hf).
  destruct (use_all_puts fuel M items (fun _ => None)) as (f' & E & K & R); [|exact ND|reflexivity|].
  { apply Forall_forall. exact Hn. }
  exists f'. split; [unfold file_scope; rewrite Wr, E; reflexivity|]. split; [exact R|].
  intros name o Hin. destruct (Hn _ Hin) as (xs & Ex). eexists. split; [exact (K name o xs Hin Ex)|]. split; [reflexivity|]. split; [reflexivity|].
  intros t. unfold has_value_type. rewrite vtype_eqb_ok. cbn. split; congruence.
Qed.

Lemma read_scope_disk fuel file ops d M r d' M' : file_scope fresh fuel convert writable file Read ops (d, M) = Some (r, (d', M')) -> d' = d.
Proof.
  unfold file_scope. destruct (d file) as [[|f]|]; try congruence.
  destruct (use_all _ _ _ _ _ _ _) as [[[? ?] ?]|]; cbn [bind]; congruence.
Qed.

Lemma second_write file n1 n2 o1 o2 o M d : writable file = true -> n1 <> n2 -> good_view o1 M -> good_view o2 M ->
  exists n, forall fuel, (n <= fuel)%nat -> exists d1 d2, hdf5_write fresh fuel convert writable file n1 o1 (d, M) = Some (Done, (d1, M)) /\
    hdf5_write fresh fuel convert writable file n2 o2 (d1, M) = Some (Done, (d2, M)) /\
    hdf5_read fresh fuel convert writable file n1 o (d2, M) = Some (Threw, (d2, M)).
Proof.
  intros Wr N G1 G2.
  destruct (linear_read_ok o1 M G1) as (k1 & H1). destruct (linear_read_ok o2 M G2) as (k2 & H2).
  exists (Nat.max k1 k2). intros fuel Hf. destruct (H1 fuel ltac:(lia)) as (x1 & E1 & _). destruct (H2 fuel ltac:(lia)) as (x2 & E2 & _).
  unfold hdf5_write, file_scope. rewrite Wr. cbn [use_all use_dset]. unfold ds_write. rewrite E1, E2. cbn [bind].
  eexists _, _. split; [reflexivity|]. split; [reflexivity|]. apply read_refused. right. right.
  eexists. split; [unfold set_file; rewrite String.eqb_refl; reflexivity|]. left. unfold set_dset. destruct (String.eqb_spec n1 n2); [contradiction|reflexivity].
Qed.

Lemma same_name file name o1 o2 M d : writable file = true -> good_view o1 M -> good_view o2 M ->
  exists n, forall fuel, (n <= fuel)%nat -> exists s,
    file_scope fresh fuel convert writable file Write [Put name o1; Put name o2] (d, M) = Some (Done, s) /\
    file_scope fresh fuel convert writable file Write [Put name o1] (d, M) = Some (Done, s).
Proof.
  intros Wr G1 G2.
  destruct (linear_read_ok o1 M G1) as (k1 & H1). destruct (linear_read_ok o2 M G2) as (k2 & H2).
  exists (Nat.max k1 k2). intros fuel Hf. destruct (H1 fuel ltac:(lia)) as (x1 & E1 & _). destruct (H2 fuel ltac:(lia)) as (x2 & E2 & _).
  unfold file_scope. rewrite Wr. cbn [use_all use_dset]. unfold ds_write. rewrite E1. cbn [bind]. rewrite E2. cbn [bind].
  unfold set_dset at 1. rewrite String.eqb_refl. cbn [bind]. eexists. split; reflexivity.
Qed.

Lemma put_in_reader file name o f M d : d file = Some (Datasets f) -> good_view o M ->
  exists n, forall fuel, (n <= fuel)%nat -> file_scope fresh fuel convert writable file Read [Put name o] (d, M) = Some (Done, (d, M)).
Proof.
  intros E G. destruct (linear_read_ok o M G) as (k & Hk). exists k. intros fuel Hf. destruct (Hk fuel Hf) as (xs & Ex & _).
  unfold file_scope. rewrite E. cbn [use_all use_dset]. unfold ds_write. rewrite Ex. reflexivity.
Qed.


(** ** PNG *)
Context (bytes : V -> list Z) (unbytes : list Z -> V).

Lemma skipn_bytes e xs a : (forall x, length (bytes x) = e) -> skipn (a * e) (concat (map bytes xs)) = concat (map bytes (skipn a xs)).
Proof.
  intros L. revert a. induction xs as [|x xs IH]; intros a; [rewrite !skipn_nil; reflexivity|].
  destruct a as [|a]; [reflexivity|]. cbn [map concat skipn Nat.mul]. rewrite skipn_app, L.
  rewrite (skipn_all2 (bytes x)) by (rewrite L; lia). cbn [app]. replace (e + a * e - e)%nat with (a * e)%nat by lia. apply IH.
Qed.
Lemma firstn_bytes e xs a : (forall x, length (bytes x) = e) -> firstn (a * e) (concat (map bytes xs)) = concat (map bytes (firstn a xs)).
Proof.
  intros L. revert a. induction xs as [|x xs IH]; intros a; [rewrite !firstn_nil; reflexivity|].
  destruct a as [|a]; [reflexivity|]. cbn [map concat firstn Nat.mul]. rewrite firstn_app, L.
  rewrite (firstn_all2 (bytes x)) by (rewrite L; lia). f_equal. replace (e + a * e - e)%nat with (a * e)%nat by lia. apply IH.
Qed.
Lemma length_bytes e xs : (forall x, length (bytes x) = e) -> length (concat (map bytes xs)) = (length xs * e)%nat.
Proof. intros L. induction xs as [|x xs IH]; [reflexivity|]. cbn [map concat length Nat.mul]. rewrite app_length, L, IH. lia. Qed.

Lemma chunks_bytes e xs : (forall x, length (bytes x) = e) -> chunks (length xs) e (concat (map bytes xs)) = map bytes xs.
Proof.
  intros L. induction xs as [|x xs IH]; [reflexivity|]. cbn [length map concat chunks].
  rewrite firstn_app, skipn_app, L, Nat.sub_diag, firstn_O, app_nil_r.
  rewrite (firstn_all2 (bytes x)) by (rewrite L; lia). rewrite (skipn_all2 (bytes x)) by (rewrite L; lia). cbn [app skipn]. f_equal. exact IH.
Qed.

Lemma skipn_add {A} a b (l : list A) : skipn a (skipn b l) = skipn (b + a) l.
Proof. revert l. induction b as [|b IH]; intros l; [reflexivity|]. destruct l; [rewrite !skipn_nil; reflexivity|]. apply IH. Qed.

Lemma slices_all (l : list Z) rb h : length l = (h * rb)%nat -> concat (map (fun r => slice l (r * rb) rb) (seq 0 h)) = l.
Proof.
  revert l. induction h as [|h IH]; intros l L.
  - destruct l; [reflexivity|discriminate].
  - cbn [seq map concat]. unfold slice at 1. cbn [Nat.mul skipn]. rewrite <- (firstn_skipn rb l) at 2. f_equal.
    rewrite <- seq_shift, map_map. rewrite <- (IH (skipn rb l)) by (rewrite skipn_length; cbn in L; lia). f_equal.
    apply map_ext. intros r. unfold slice. rewrite skipn_add. reflexivity.
Qed.

Lemma nth_firstn_skipn {A} (l : list A) a n c : (c < n)%nat -> nth_error (firstn n (skipn a l)) c = nth_error l (a + c).
Proof.
  intros Hc. rewrite <- (firstn_skipn n (skipn a l)) at 1.
  assert (Q : forall (q : list A) n c, (c < n)%nat -> nth_error (firstn n q) c = nth_error q c).
  { induction q as [|x q IH]; intros [|m] [|k] Hk; try lia; try reflexivity. cbn. apply IH. lia. }
  rewrite firstn_skipn, Q by exact Hc.
  clear. revert l. induction a as [|a IH]; intros l; [reflexivity|]. destruct l; [destruct c; reflexivity|]. apply IH.
Qed.

Lemma samples_channels c : channels c = samples c. Proof. destruct c; reflexivity. Qed.
Lemma samples_pos c : 1 <= samples c <= 4. Proof. destruct c; cbn; lia. Qed.

Lemma storable_ok i : storable i -> ihdr_ok i = true.
Proof.
  intros (W & H & D). unfold ihdr_ok. rewrite !(proj2 (Z.ltb_lt _ _)) by lia. cbn [andb].
  destruct D as [-> |[-> N]]; destruct (i_color i); try reflexivity. congruence.
Qed.

Lemma rowbytes_ok i o : storable i -> pixels bytes i o -> 0 < o_elem o /\ rowbytes i = i_width i * o_elem o /\ i_depth i * channels (i_color i) / 8 = o_elem o.
Proof.
  intros (W & H & D) (P & _). rewrite samples_channels, <- P. pose proof (samples_pos (i_color i)). split; [destruct D as [E|[E _]]; rewrite E in P; lia|]. split.
  - unfold rowbytes. rewrite <- Z.mul_assoc, samples_channels, <- P. rewrite Z.mul_assoc, (Z.mul_comm (i_width i) 8), <- Z.mul_assoc.
    rewrite Z.add_comm, Z.mul_comm, Z.div_add by lia. reflexivity.
  - rewrite Z.mul_comm, Z.div_mul by lia. reflexivity.
Qed.

Lemma encode_ok i o M : good_view o M -> storable i -> pixels bytes i o -> sizes (o_view o) = [i_height i; i_width i] ->
  exists n, forall fuel, (n <= fuel)%nat -> exists xs,
    encode fresh fuel bytes i o M = Some {| g_info := i; g_rows := map (fun r => slice (concat (map bytes xs)) (r * Z.to_nat (rowbytes i)) (Z.to_nat (rowbytes i))) (seq 0 (Z.to_nat (i_height i))) |} /\
    length xs = (Z.to_nat (i_height i) * Z.to_nat (i_width i))%nat /\
    forall r c, 0 <= r < i_height i -> 0 <= c < i_width i -> nth_error xs (Z.to_nat r * Z.to_nat (i_width i) + Z.to_nat c) = element o M [r; c].
Proof.
  intros G St P Es. destruct (linear_read_ok o M G) as (n & Hn). exists n. intros fuel Hf. destruct (Hn fuel Hf) as (xs & E & L & N).
  destruct (rowbytes_ok i o St P) as (Pe & RB & EE). destruct P as (_ & LB). rewrite Es in *.
  assert (Lx : length xs = (Z.to_nat (i_height i) * Z.to_nat (i_width i))%nat).
  { rewrite L. unfold count. cbn [fold_right]. destruct St as (? & ? & _). rewrite <- Z2Nat.inj_mul by lia. f_equal. ring. }
  exists xs. split; [|split; [exact Lx|]].
  - unfold encode. rewrite (storable_ok i St), Es. cbn [length Nat.eqb at_ nth]. unfold at_. cbn [nth]. rewrite !Z.eqb_refl. cbn [andb].
    rewrite EE, Z.eqb_refl, E. cbn [bind]. rewrite (length_bytes (Z.to_nat (o_elem o))) by exact LB. rewrite RB, Lx.
    destruct St as (? & ? & _). rewrite Z2Nat.inj_mul by lia. rewrite (proj2 (Nat.leb_le _ _)) by lia. reflexivity.
  - intros r c Hr Hc. rewrite <- (N [r; c]) by (repeat constructor; lia). f_equal. rewrite rowrank_2.
    rewrite Z2Nat.inj_add, Z2Nat.inj_mul by nia. reflexivity.
Qed.

Lemma png_rows i o M : good_view o M -> storable i -> pixels bytes i o -> sizes (o_view o) = [i_height i; i_width i] ->
  exists n, forall fuel, (n <= fuel)%nat -> exists g, encode fresh fuel bytes i o M = Some g /\ g_info g = i /\ wellformed g /\
    forall r, 0 <= r < i_height i -> exists xs, nth_error (g_rows g) (Z.to_nat r) = Some (concat (map bytes xs)) /\
      length xs = Z.to_nat (i_width i) /\ forall c, 0 <= c < i_width i -> nth_error xs (Z.to_nat c) = element o M [r; c].
Proof.
  intros G St P Es. destruct (encode_ok i o M G St P Es) as (n & Hn). exists n. intros fuel Hf. destruct (Hn fuel Hf) as (xs & E & Lx & N).
  destruct (rowbytes_ok i o St P) as (Pe & RB & EE). destruct P as (P8 & LB). pose proof St as (W & H & _).
  eexists. split; [exact E|]. split; [reflexivity|]. cbn [g_rows g_info].
  assert (RN : Z.to_nat (rowbytes i) = (Z.to_nat (i_width i) * Z.to_nat (o_elem o))%nat) by (rewrite RB, Z2Nat.inj_mul by lia; reflexivity).
  assert (SL : forall r, (r < Z.to_nat (i_height i))%nat -> slice (concat (map bytes xs)) (r * Z.to_nat (rowbytes i)) (Z.to_nat (rowbytes i)) =
    concat (map bytes (firstn (Z.to_nat (i_width i)) (skipn (r * Z.to_nat (i_width i)) xs))) /\
    length (firstn (Z.to_nat (i_width i)) (skipn (r * Z.to_nat (i_width i)) xs)) = Z.to_nat (i_width i)).
  { intros r Hr. split.
    - unfold slice. rewrite RN, Nat.mul_assoc, (skipn_bytes (Z.to_nat (o_elem o))) by exact LB. apply firstn_bytes. exact LB.
    - rewrite firstn_length, skipn_length, Lx. nia. }
  split.
  - unfold wellformed. cbn [g_rows g_info]. rewrite map_length, seq_length. split; [reflexivity|].
    apply Forall_forall. intros q Hq. apply in_map_iff in Hq as (r & <- & Hr). apply in_seq in Hr.
    destruct (SL r) as [-> Lr]; [lia|]. rewrite (length_bytes (Z.to_nat (o_elem o))) by exact LB. rewrite Lr. nia.
  - intros r Hr. exists (firstn (Z.to_nat (i_width i)) (skipn (Z.to_nat r * Z.to_nat (i_width i)) xs)).
    destruct (SL (Z.to_nat r)) as [Sr Lr]; [lia|]. split; [|split; [exact Lr|]].
    + rewrite nth_error_map, (nth_error_nth' _ 0%nat) by (rewrite seq_length; lia). rewrite seq_nth by lia. cbn [option_map Nat.add].
      f_equal. exact Sr.
    + intros c Hc. rewrite nth_firstn_skipn by lia. apply N; assumption.
Qed.

Lemma png_round_trip i o M o' M' : good_view o M -> storable i -> pixels bytes i o -> sizes (o_view o) = [i_height i; i_width i] ->
  i_width i = i_height i -> (forall x, unbytes (bytes x) = x) ->
  good_view o' M' -> o_elem o' = o_elem o -> sizes (o_view o') = sizes (o_view o) ->
  exists n, forall fuel, (n <= fuel)%nat -> exists g M2, encode fresh fuel bytes i o M = Some g /\
    decode fresh fuel unbytes g o' M' = Some M2 /\
    (forall r c, 0 <= r < i_height i -> 0 <= c < i_width i -> element o' M2 [r; c] = element o M [r; c]) /\
    only_elements o' M' M2.
Proof.
  intros G St P Es Sq UB G' Ee Es'. destruct (encode_ok i o M G St P Es) as (n & Hn). destruct (linear_write_ok o' M' G') as (n' & Hn').
  exists (Nat.max n n'). intros fuel Hf. destruct (Hn fuel ltac:(lia)) as (xs & E & Lx & N).
  destruct (rowbytes_ok i o St P) as (Pe & RB & EE). destruct P as (P8 & LB). pose proof St as (W & H & _).
  assert (RN : Z.to_nat (rowbytes i) = (Z.to_nat (i_width i) * Z.to_nat (o_elem o))%nat) by (rewrite RB, Z2Nat.inj_mul by lia; reflexivity).
  assert (CN : length xs = count (sizes (o_view o'))).
  { rewrite Lx, Es', Es. unfold count. cbn [fold_right]. rewrite <- Z2Nat.inj_mul by lia. f_equal. ring. }
  destruct (Hn' fuel xs ltac:(lia) CN) as (M2 & E2 & X2 & O2).
  eexists. exists M2. split; [exact E|]. split; [|split; [|exact O2]].
  - unfold decode. cbn [g_info g_rows]. rewrite slices_all by (rewrite (length_bytes (Z.to_nat (o_elem o))) by exact LB; rewrite RN, Lx; lia).
    rewrite (length_bytes (Z.to_nat (o_elem o))) by exact LB. rewrite Ee, <- CN, Es', Es. cbn [length Nat.eqb]. unfold at_. cbn [nth].
    rewrite Sq, !Z.eqb_refl. cbn [andb]. rewrite EE, Z.eqb_refl, Nat.leb_refl, Nat.div_mul by lia.
    rewrite chunks_bytes by exact LB. rewrite map_map, (map_ext _ (fun x => x)) by exact UB. rewrite map_id. exact E2.
  - intros r c Hr Hc. rewrite X2 by (rewrite Es', Es; repeat constructor; lia). rewrite <- N by assumption. f_equal.
    rewrite Es', Es, rowrank_2, Z2Nat.inj_add, Z2Nat.inj_mul by nia. reflexivity.
Qed.

Lemma rect_refused fuel g o M : i_width (g_info g) <> i_height (g_info g) ->
  sizes (o_view o) = [i_height (g_info g); i_width (g_info g)] -> decode fresh fuel unbytes g o M = None.
Proof.
  intros N Es. unfold decode. rewrite Es. cbn [length Nat.eqb]. unfold at_. cbn [nth]. rewrite Z.eqb_refl. cbn [andb].
  rewrite (proj2 (Z.eqb_neq _ _)) by exact N. reflexivity.
Qed.

Lemma concat_length {A} (l : list (list A)) (f : list A -> Z) k : Forall (fun r => 8 * Z.of_nat (length r) = k) l ->
  8 * Z.of_nat (length (concat l)) = Z.of_nat (length l) * k.
Proof. induction 1 as [|r l Hr F IH]; [reflexivity|]. cbn [concat length]. rewrite app_length. lia. Qed.

Lemma wide_overrun fuel g o M : wellformed g -> storable (g_info g) -> i_height (g_info g) < i_width (g_info g) ->
  8 * o_elem o = i_depth (g_info g) * samples (i_color (g_info g)) ->
  sizes (o_view o) = [i_height (g_info g); i_height (g_info g)] -> decode fresh fuel unbytes g o M = None.
Proof.
  intros (L & F) St Wd P Es. unfold decode. rewrite Es. cbn [length Nat.eqb]. unfold at_. cbn [nth]. rewrite Z.eqb_refl. cbn [andb].
  destruct (_ =? _); [|reflexivity].
  apply (concat_length _ (fun _ => 0)) in F. rewrite L in F. destruct St as (W & H & D).
  pose proof (samples_pos (i_color (g_info g))) as SP.
  assert (Pe : 0 < o_elem o) by (destruct D as [E|[E _]]; rewrite E in P; lia).
  destruct (Nat.leb_spec (length (concat (g_rows g))) (count [i_height (g_info g); i_height (g_info g)] * Z.to_nat (o_elem o))) as [B|]; [|reflexivity].
  exfalso. unfold count in B. cbn [fold_right] in B. rewrite <- Z2Nat.inj_mul in B by nia.
  assert (B' : Z.of_nat (length (concat (g_rows g))) <= i_height (g_info g) * (i_height (g_info g) * 1) * o_elem o) by lia.
  rewrite <- Z.mul_assoc, <- P in F. nia.
Qed.

Lemma low_depth fuel i o M g : In (i_depth i) [1; 2; 4] -> i_color i = Gray \/ i_color i = Palette -> 0 < o_elem o -> g_info g = i ->
  encode fresh fuel bytes i o M = None /\ decode fresh fuel unbytes g o M = None.
Proof.
  intros D C E Eg. assert (Q : o_elem o =? i_depth i * channels (i_color i) / 8 = false).
  { apply Z.eqb_neq. destruct C as [-> | ->]; cbn [channels]; destruct D as [<- |[<- |[<- |[]]]]; cbn; lia. }
  unfold encode, decode. rewrite Eg, Q. split; repeat match goal with |- (if ?b then _ else _) = _ => destruct b end; reflexivity.
Qed.
End El.
