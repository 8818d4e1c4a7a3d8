(** Proofs about storage formats and user storage. *)
From Coq Require Import List Arith ZArith Lia Bool.
From Verif Require Import Base Domain Layout LayoutProofs Views ViewsProofs Storage.
Import ListNotations.
Local Open Scope nat_scope.

Section P.
Context {V : Type}.
Implicit Types (m f : mem V) (p q : sptr).

Definition same_mapped (m m' : mem V) : Prop := forall a, m a = None <-> m' a = None.
Lemma same_refl m : same_mapped m m. Proof. intros a; tauto. Qed.
Lemma same_trans m1 m2 m3 : same_mapped m1 m2 -> same_mapped m2 m3 -> same_mapped m1 m3.
Proof. intros H G a. rewrite (H a). apply G. Qed.
Lemma same_array m m' p n : same_mapped m m' -> is_array m p n -> is_array m' p n.
Proof. intros S [N M]. split; [exact N|]. intros a Ha E. apply (M a Ha). apply S. exact E. Qed.

Lemma in_cells p n i a : i < n -> In a (cells p i) -> In a (all_cells p n).
Proof. intros Hi Ha. unfold all_cells. apply in_flat_map. exists i. split; [apply in_seq; lia|exact Ha]. Qed.

Lemma nodup_app {A} (a b : list A) : NoDup (a ++ b) -> NoDup a /\ NoDup b /\ forall x, In x a -> ~ In x b.
Proof.
  induction a as [|x a IH]; cbn [app]; intros H.
  - repeat split; [constructor|exact H|intros ? []].
  - inversion H as [|? ? Nx Nl]; subst. destruct (IH Nl) as (Na & Nb & D). repeat split; auto.
    + constructor; [|exact Na]. intros Hx. apply Nx, in_or_app. auto.
    + intros y [<-|Hy] Hb; [apply Nx, in_or_app; auto|exact (D y Hy Hb)].
Qed.

Lemma cells_apart p n i j a : NoDup (all_cells p n) -> i < n -> j < n -> i <> j -> In a (cells p i) -> ~ In a (cells p j).
Proof.
  assert (G : forall l, NoDup (flat_map (cells p) l) -> NoDup l -> forall i j, In i l -> In j l -> i <> j -> In a (cells p i) -> ~ In a (cells p j)).
  { induction l as [|x l IH]; intros N Nl i' j' Hi Hj Ne Ha; [contradiction|].
    cbn [flat_map] in N. apply nodup_app in N as (_ & N2 & D). inversion Nl as [|? ? _ Nl']; subst.
    assert (IN : forall k, In k l -> In a (cells p k) -> In a (flat_map (cells p) l)) by (intros k Hk Hak; apply in_flat_map; eauto).
    destruct Hi as [->|Hi], Hj as [->|Hj]; [congruence| | |].
    - intros Hb. apply (D a Ha). exact (IN _ Hj Hb).
    - intros Hb. apply (D a Hb). exact (IN _ Hi Ha).
    - exact (IH N2 Nl' i' j' Hi Hj Ne Ha). }
  intros N Hi Hj Ne. apply (G (seq 0 n) N (seq_NoDup n 0)); [apply in_seq; lia|apply in_seq; lia|exact Ne].
Qed.

Lemma cells_nodup p n i : NoDup (all_cells p n) -> i < n -> NoDup (cells p i).
Proof.
  assert (G : forall l, NoDup (flat_map (cells p) l) -> In i l -> NoDup (cells p i)).
  { induction l as [|x l IH]; intros N Hi; [contradiction|]. cbn [flat_map] in N. apply nodup_app in N as (N1 & N2 & _).
    destruct Hi as [->|Hi]; auto. }
  intros N Hi. apply (G (seq 0 n)); [exact N|apply in_seq; lia].
Qed.

Lemma sget_cells m m' p i : (forall a, In a (cells p i) -> m' a = m a) -> sget m' p i = sget m p i.
Proof. intros H. destruct p; unfold sget, mload, cells in *; rewrite !H by (cbn; auto); reflexivity. Qed.

Lemma cells2 p i : exists a b, cells p i = [a; b] /\
  (forall m, sget m p i = (x <- mload m a ;; y <- mload m b ;; Some (x, y))) /\
  (forall m v, sput m p i v = (m1 <- mstore m a (fst v) ;; mstore m1 b (snd v))).
Proof. destruct p; eexists _, _; repeat split; reflexivity. Qed.

Lemma mstore_mapped m a x : m a <> None -> mstore m a x = Some (mupd m a x).
Proof. intros H. unfold mstore. destruct (m a); [reflexivity|congruence]. Qed.
Lemma mupd_same m a x : mupd m a x a = Some x.
Proof. unfold mupd. rewrite Z.eqb_refl. reflexivity. Qed.
Lemma mupd_other m a x b : b <> a -> mupd m a x b = m b.
Proof. intros H. unfold mupd. destruct (Z.eqb_spec b a); [contradiction|reflexivity]. Qed.
Lemma mupd_mapped m a x : m a <> None -> same_mapped m (mupd m a x).
Proof.
  intros H b. unfold mupd. destruct (Z.eqb_spec b a) as [->|]; [|tauto]. split; [tauto|discriminate].
Qed.

Lemma sput_spec m p n i v : is_array m p n -> i < n ->
  exists m', sput m p i v = Some m' /\ sget m' p i = Some v /\
    (forall a, ~ In a (cells p i) -> m' a = m a) /\ same_mapped m m'.
Proof.
  intros [N M] Hi. pose proof (cells_nodup p n i N Hi) as Nc.
  assert (Mc : forall a, In a (cells p i) -> m a <> None) by (intros a Ha; apply M; eapply in_cells; eassumption).
  destruct (cells2 p i) as (a & b & E & G & P). rewrite E in *.
  assert (a <> b) by (inversion Nc as [|? ? Na _]; subst; intros ->; apply Na; left; reflexivity).
  rewrite P, (mstore_mapped m a) by (apply Mc; left; reflexivity). cbn [bind].
  assert (Mb : mupd m a (fst v) b <> None) by (rewrite mupd_other by congruence; apply Mc; right; left; reflexivity).
  rewrite (mstore_mapped _ b) by exact Mb. eexists. split; [reflexivity|]. split; [|split].
  - rewrite G. unfold mload. rewrite mupd_same, mupd_other, mupd_same by congruence. cbn [bind]. destruct v; reflexivity.
  - intros x Hx. rewrite mupd_other, mupd_other; [reflexivity| |]; intros ->; apply Hx; [left|right; left]; reflexivity.
  - eapply same_trans; [apply mupd_mapped, Mc; left; reflexivity|apply mupd_mapped; exact Mb].
Qed.

Lemma sget_some m p n i : is_array m p n -> i < n -> exists v, sget m p i = Some v.
Proof.
  intros [N M] Hi. assert (Mc : forall a, In a (cells p i) -> m a <> None) by (intros a Ha; apply M; eapply in_cells; eassumption).
  destruct (cells2 p i) as (a & b & E & G & _). rewrite E in *. rewrite G. unfold mload.
  pose proof (Mc a (or_introl eq_refl)) as A. pose proof (Mc b (or_intror (or_introl eq_refl))) as B.
  destruct (m a) as [x|]; [|contradiction]. destruct (m b) as [y|]; [|contradiction]. cbn. eauto.
Qed.

Lemma sput_other m m' p n i j : is_array m p n -> i < n -> j < n -> j <> i ->
  (forall a, ~ In a (cells p i) -> m' a = m a) -> sget m' p j = sget m p j.
Proof.
  intros [N _] Hi Hj Ne U. apply sget_cells. intros a Ha. apply U. exact (cells_apart p n j i a N Hj Hi Ne Ha).
Qed.

Lemma format_lemma m p n i v : is_array m p n -> i < n ->
  exists m', sput m p i v = Some m' /\ sget m' p i = Some v /\
    (forall j, j < n -> j <> i -> sget m' p j = sget m p j) /\
    (forall a, ~ In a (all_cells p n) -> m' a = m a).
Proof.
  intros A Hi. destruct (sput_spec m p n i v A Hi) as (m' & E & G & U & _). exists m'. split; [exact E|]. split; [exact G|].
  split; [intros j Hj Ne; apply (sput_other m m' p n i j); assumption|]. intros a Ha. apply U. intros X. apply Ha. eapply in_cells; eassumption.
Qed.

Lemma copy_loop d s n m : is_array m d n -> is_array m s n -> apart d s n ->
  exists m', loop (copy_step (Some d) (Some s)) 0 n m = Some m' /\
    (forall i, i < n -> sget m' d i = sget m s i) /\
    (forall a, ~ In a (all_cells d n) -> m' a = m a) /\ same_mapped m m'.
Proof.
  intros Ad As D.
  destruct (loop_inv (copy_step (Some d) (Some s)) (fun k m' =>
     (forall i, i < k -> sget m' d i = sget m s i) /\ (forall a, ~ In a (all_cells d n) -> m' a = m a) /\ same_mapped m m') n 0 m)
    as (m' & E & I1 & I2 & I3).
  - split; [intros; lia|]. split; [reflexivity|apply same_refl].
  - intros k mk Hk (I1 & I2 & I3). unfold copy_step. cbn [bind].
    assert (Gs : forall i, i < n -> sget mk s i = sget m s i).
    { intros i Hi. apply sget_cells. intros a Ha. apply I2. intros X. apply (D a X). eapply in_cells; eassumption. }
    destruct (sget_some m s n k As ltac:(lia)) as (v & Ev). rewrite Gs, Ev by lia. cbn [bind].
    destruct (sput_spec mk d n k v (same_array _ _ _ _ I3 Ad) ltac:(lia)) as (m2 & E2 & G2 & U2 & S2).
    exists m2. split; [exact E2|]. split; [|split].
    + intros i Hi. destruct (Nat.eq_dec i k) as [->|Ne]; [rewrite G2; symmetry; exact Ev|].
      rewrite (sput_other mk m2 d n k i (same_array _ _ _ _ I3 Ad)) by (assumption || lia). apply I1. lia.
    + intros a Ha. rewrite U2; [apply I2; exact Ha|]. intros X. apply Ha. eapply in_cells; [|exact X]. lia.
    + eapply same_trans; eassumption.
  - exists m'. cbn [Nat.add] in *. auto.
Qed.

(** *** Component views *)
Lemma component_lemma m p n c i x : is_array m p n -> i < n ->
  exists m', cput m p c i x = Some m' /\ cget m' p c i = Some x /\
    (forall c' j, j < n -> (c', j) <> (c, i) -> cget m' p c' j = cget m p c' j) /\
    (forall a, ~ In a (all_cells p n) -> m' a = m a).
Proof.
  intros A Hi. destruct (sget_some m p n i A Hi) as (v & Ev). unfold cput. rewrite Ev. cbn [bind].
  destruct (format_lemma m p n i (replace_part c v x) A Hi) as (m' & E & G & O & U). exists m'. split; [exact E|].
  unfold cget. split; [rewrite G; destruct c; reflexivity|]. split; [|exact U].
  intros c' j Hj Ne. destruct (Nat.eq_dec j i) as [->|Nj]; [|rewrite O by assumption; reflexivity].
  rewrite G, Ev. cbn [bind]. destruct c, c'; try congruence; reflexivity.
Qed.

Lemma component_cell m p c k v : sget m p k = Some v ->
  mload m (cptr p c + cstride (fmt_of p) (Z.of_nat k))%Z = cget m p c k.
Proof.
  intros E. unfold cget. rewrite E. cbn [bind].
  destruct (cells2 p k) as (a & b & C & G & _). rewrite G in E. unfold mload in *.
  destruct (m a) as [x|] eqn:Ea; [|discriminate]. destruct (m b) as [y|] eqn:Eb; [|discriminate]. cbn in E. injection E as <-.
  destruct p, c; cbn [cells] in C; injection C as <- <-; cbn [cptr cstride fmt_of extract fst snd];
  (rewrite <- Ea || rewrite <- Eb); f_equal; lia.
Qed.
Lemma cstride_lin (f : fmt) x y : (cstride f (x + y) = cstride f x + cstride f y)%Z.
Proof. destruct f; cbn [cstride]; lia. Qed.
Lemma cstride_mul (f : fmt) x i : (cstride f (x * i) = cstride f x * i)%Z.
Proof. destruct f; cbn [cstride]; ring. Qed.

Lemma cstride_dot (f : fmt) st : forall i d, dot_strides (fun k => cstride f (st k)) d i = cstride f (dot_strides st d i).
Proof.
  induction i as [|x i IH]; intros d; cbn [dot_strides]; [destruct f; reflexivity|].
  rewrite IH, cstride_lin, (Z.mul_comm x (st d)), cstride_mul. ring.
Qed.
Lemma cptr_offset p c k : (cptr (soffset p k) c = cptr p c + cstride (fmt_of p) (Z.of_nat k))%Z.
Proof. destruct p, c; cbn [soffset cptr fmt_of cstride]; lia. Qed.

Lemma dot_zero st : forall k d, dot_strides st d (repeat 0%Z k) = 0%Z.
Proof. induction k as [|k IH]; intros d; cbn [repeat dot_strides]; [reflexivity|]. rewrite IH. reflexivity. Qed.
Lemma zero_in_range ext i : in_range ext i -> in_range ext (repeat 0%Z (length i)).
Proof. intros H. induction H as [|e x l l' Hx H IH]; cbn [length repeat]; constructor; [lia|exact IH]. Qed.
Lemma ptr_nonneg v i : wf v -> in_range (sizes v) i -> (0 <= ptr v)%Z.
Proof.
  intros W R. apply zero_in_range in R. destruct (names_exists v _ W R) as (r & N).
  destruct (ptr_lemma v _ r W R (proj2 (N r) eq_refl)) as [_ B]. rewrite dot_zero in B. lia.
Qed.

Lemma component_pointer_lemma v i r k m p c x :
  wf v -> in_range (sizes v) i -> names v i r -> index (root_layout v) r = Some k ->
  sget m p (Z.to_nat k) = Some x ->
  mload m (cptr (soffset p (Z.to_nat (ptr v))) c +
           dot_strides (fun d => cstride (fmt_of p) (vstride v d)) 0 i)%Z = Some (extract c x).
Proof.
  intros W R N K G. pose proof (ptr_nonneg v i W R) as P0. destruct (ptr_lemma v i r W R N) as [E B]. assert (k = (ptr v + dot_strides (vstride v) 0 i)%Z) by congruence. subst k.
  rewrite cptr_offset, cstride_dot, Z2Nat.id, <- Z.add_assoc, <- cstride_lin by exact P0.
  rewrite <- (Z2Nat.id (ptr v + dot_strides (vstride v) 0 i)%Z) by lia. rewrite (component_cell m p c _ x G).
  unfold cget. rewrite G. reflexivity.
Qed.

Lemma cells_lemma m p i x y : sget m p i = Some (x, y) ->
  match p with
  | Arr a | Int a => m (a + 2 * Z.of_nat i)%Z = Some x /\ m (a + 2 * Z.of_nat i + 1)%Z = Some y
  | Spl r s => m (r + Z.of_nat i)%Z = Some x /\ m (s + Z.of_nat i)%Z = Some y
  end.
Proof.
  destruct p as [a|a|r s]; cbn [sget]; unfold mload.
  1,2: replace (a + 2 * Z.of_nat i + 1)%Z with (a + Z.of_nat (2 * i + 1))%Z by lia; replace (a + 2 * Z.of_nat i)%Z with (a + Z.of_nat (2 * i))%Z by lia;
    destruct (m (a + Z.of_nat (2 * i))%Z); [|discriminate]; destruct (m (a + Z.of_nat (2 * i + 1))%Z); [|discriminate]; cbn; intros E; injection E as <- <-; auto.
  destruct (m (r + Z.of_nat i)%Z); [|discriminate]; destruct (m (s + Z.of_nat i)%Z); [|discriminate]; cbn; intros E; injection E as <- <-; auto.
Qed.

Lemma conversion_lemma m d s n : is_array m d n -> is_array m s n -> apart d s n ->
  exists m', loop (copy_step (Some d) (Some s)) 0 n m = Some m' /\
    (forall i, i < n -> sget m' d i = sget m s i /\ sget m' s i = sget m s i) /\
    (forall a, ~ In a (all_cells d n) -> m' a = m a).
Proof.
  intros A B D. destruct (copy_loop d s n m A B D) as (m' & E & G & U & _). exists m'. split; [exact E|]. split; [|exact U].
  intros i Hi. split; [auto|]. apply sget_cells. intros c Hc. apply U. intros X. apply (D c X). eapply in_cells; eassumption.
Qed.

Lemma idempotent_lemma m s b :
  (admitted s = true -> admit m s b = Some (m, s)) /\ (admitted s = false -> release m s b = Some (m, s)).
Proof. destruct s as [u uu h n o ad]; cbn [admitted]; split; intros ->; reflexivity. Qed.

(** *** The history theorem *)
Section Hist.
Context (F : fmt) (OWN : list (sptr * nat)).

Definition agrees (e r : option (V * V)) : Prop := forall v, e = Some v -> r = Some v.
Definition knows (m f : mem V) : Prop := forall c x, f c = Some x -> m c = Some x.
Definition users_only (f : mem V) : Prop := forall c, f c <> None -> user_cell OWN c.

Record inv (m : mem V) (s : mgr) (a : @astate V) (h : sptr) : Prop := {
  i_user : user s = Some (aptr a); i_data : hdata s = Some h;
  i_size : hsize s = an a; i_adm : admitted s = aadm a;
  i_own : own s = negb (use_user s);
  i_au : user_array m OWN (aptr a) (an a); i_ah : is_array m h (an a);
  i_rel : if use_user s then (forall i, cells (aptr a) i = cells h i) else In (h, an a) OWN;
  i_b : aadm a = true -> forall i v, i < an a -> ablock a i = Some v -> sget m h i = Some v;
  i_hid : aadm a = true -> forall c, In c (all_cells (aptr a) (an a)) -> amem a c = None;
  i_m : knows m (amem a); i_dom : users_only (amem a)
}.

Lemma cast_ok u : compatible F (Some u) = true -> exists h, cast F u = Some h /\ (forall i, cells u i = cells h i).
Proof. destruct F, u; try discriminate; intros _; eexists; repeat split; reflexivity. Qed.

Lemma sget_aread m p i : sget m p i = aread m p i.
Proof. destruct p; reflexivity. Qed.
Lemma sget_same m p q i : cells p i = cells q i -> sget m p i = sget m q i.
Proof. intros H. rewrite !sget_aread. unfold aread. rewrite H. reflexivity. Qed.
Lemma all_cells_same p q n : (forall i, cells p i = cells q i) -> all_cells p n = all_cells q n.
Proof.
  intros C. unfold all_cells. induction (seq 0 n) as [|x l IH]; cbn [flat_map]; [reflexivity|]. rewrite C, IH. reflexivity.
Qed.
Lemma cells_array m u h n : (forall i, cells u i = cells h i) -> is_array m u n -> is_array m h n.
Proof. intros C. unfold is_array. rewrite (all_cells_same u h n C). tauto. Qed.
Lemma ua_same m m' p n : same_mapped m m' -> user_array m OWN p n -> user_array m' OWN p n.
Proof. intros S [A B]. split; [eapply same_array; eassumption|exact B]. Qed.

Lemma aread_knows m f p i v : knows m f -> aread f p i = Some v -> sget m p i = Some v.
Proof.
  intros K. rewrite sget_aread. unfold aread. destruct (cells2 p i) as (a & b & E & _ & _). rewrite E.
  destruct (f a) as [x|] eqn:A; [|discriminate]. destruct (f b) as [y|] eqn:B; [|discriminate]. cbn.
  rewrite (K _ _ A), (K _ _ B). auto.
Qed.
Lemma awrite_in f p i v c : In c (cells p i) -> NoDup (cells p i) -> forall m, (forall w, v = Some w -> sget m p i = Some w) ->
  forall x, awrite f p i v c = Some x -> m c = Some x.
Proof.
  intros Hc N m G x. unfold awrite. destruct (cells2 p i) as (a & b & E & Ge & _). rewrite E in *. rewrite Ge in G.
  unfold mload in G. assert (a <> b) by (inversion N as [|? ? Na _]; subst; intros ->; apply Na; left; reflexivity).
  destruct v as [w|]; [|destruct Hc as [<-|[<-|[]]]; rewrite ?Z.eqb_refl; destruct (Z.eqb b a); discriminate].
  specialize (G w eq_refl). destruct (m a) as [va|] eqn:A; [|discriminate]. destruct (m b) as [vb|] eqn:B; [|discriminate]. cbn in G.
  injection G as <-. destruct Hc as [<-|[<-|[]]].
  - rewrite Z.eqb_refl. cbn. congruence.
  - destruct (Z.eqb_spec b a); [congruence|]. rewrite Z.eqb_refl. cbn. congruence.
Qed.
Lemma awrite_out f p i v c : ~ In c (cells p i) -> awrite f p i v c = f c.
Proof.
  intros Hc. unfold awrite. destruct (cells2 p i) as (a & b & E & _). rewrite E in *.
  destruct (Z.eqb_spec c a) as [->|]; [exfalso; apply Hc; left; reflexivity|].
  destruct (Z.eqb_spec c b) as [->|]; [exfalso; apply Hc; right; left; reflexivity|reflexivity].
Qed.
Lemma in_cells_dec c p i : In c (cells p i) \/ ~ In c (cells p i).
Proof. destruct (in_dec Z.eq_dec c (cells p i)); auto. Qed.

Lemma awrite_knows m f p i v : NoDup (cells p i) -> (forall c x, ~ In c (cells p i) -> f c = Some x -> m c = Some x) ->
  (forall w, v = Some w -> sget m p i = Some w) -> knows m (awrite f p i v).
Proof.
  intros N K G c x Hx. destruct (in_cells_dec c p i) as [Hc|Hc].
  - exact (awrite_in f p i v c Hc N m G x Hx).
  - rewrite awrite_out in Hx by exact Hc. auto.
Qed.

Lemma awrite_all_S f p n vs : awrite_all f p (S n) vs = awrite (awrite_all f p n vs) p n (vs n).
Proof. unfold awrite_all. rewrite seq_S, fold_left_app. reflexivity. Qed.
Lemma awrite_all_out f p n vs c : ~ In c (all_cells p n) -> awrite_all f p n vs c = f c.
Proof.
  induction n as [|n IH]; intros H; [reflexivity|]. rewrite awrite_all_S. unfold all_cells in *. rewrite seq_S, flat_map_app, in_app_iff in H.
  cbn [flat_map] in H. rewrite app_nil_r in H. cbn [Nat.add] in H. rewrite awrite_out by tauto. apply IH. tauto.
Qed.
Lemma awrite_all_at f p n vs i c : NoDup (all_cells p n) -> i < n -> In c (cells p i) ->
  awrite_all f p n vs c = awrite f p i (vs i) c.
Proof.
  induction n as [|n IH]; intros N Hi Hc; [lia|]. rewrite awrite_all_S.
  assert (N' : NoDup (all_cells p n)).
  { unfold all_cells in *. rewrite seq_S, flat_map_app in N. apply nodup_app in N. tauto. }
  destruct (Nat.eq_dec i n) as [->|Ne].
  - unfold awrite. destruct (cells2 p n) as (a & b & E & _). rewrite E in *. destruct Hc as [<-|[<-|[]]]; rewrite ?Z.eqb_refl; [reflexivity|].
    destruct (Z.eqb b a); reflexivity.
  - rewrite awrite_out; [apply IH; auto; lia|]. apply (cells_apart p (S n) i n c N); auto; lia.
Qed.
Lemma in_all p n c : In c (all_cells p n) -> exists i, i < n /\ In c (cells p i).
Proof. intros H. apply in_flat_map in H as (i & Hi & Hc). apply in_seq in Hi. exists i. split; [lia|exact Hc]. Qed.

Lemma awrite_all_knows m f p n vs : NoDup (all_cells p n) -> (forall c x, ~ In c (all_cells p n) -> f c = Some x -> m c = Some x) ->
  (forall i w, i < n -> vs i = Some w -> sget m p i = Some w) -> knows m (awrite_all f p n vs).
Proof.
  intros N K G c x Hx. destruct (in_dec Z.eq_dec c (all_cells p n)) as [Hc|Hc].
  - destruct (in_all p n c Hc) as (i & Hi & Hci). rewrite (awrite_all_at f p n vs i c N Hi Hci) in Hx.
    eapply (awrite_in f p i (vs i) c Hci (cells_nodup p n i N Hi)); [|exact Hx]. intros w Hw. apply G; assumption.
  - rewrite awrite_all_out in Hx by exact Hc. auto.
Qed.
Lemma awrite_all_unknown f p n c : NoDup (all_cells p n) -> In c (all_cells p n) -> awrite_all f p n unknown c = None.
Proof.
  intros N Hc. destruct (in_all p n c Hc) as (i & Hi & Hci). rewrite (awrite_all_at f p n unknown i c N Hi Hci). unfold awrite, unknown.
  destruct (cells2 p i) as (a & b & E & _). rewrite E in *. destruct Hci as [<-|[<-|[]]]; rewrite ?Z.eqb_refl; [reflexivity|].
  destruct (Z.eqb b a); reflexivity.
Qed.
Lemma awrite_all_dom f p n vs : users_only f -> (forall c, In c (all_cells p n) -> user_cell OWN c) -> users_only (awrite_all f p n vs).
Proof.
  intros U C c Hc. destruct (in_dec Z.eq_dec c (all_cells p n)) as [H|H]; [auto|]. rewrite awrite_all_out in Hc by exact H. auto.
Qed.
Lemma awrite_dom f p i v : users_only f -> (forall c, In c (cells p i) -> user_cell OWN c) -> users_only (awrite f p i v).
Proof.
  intros U C c Hc. destruct (in_cells_dec c p i) as [H|H]; [auto|]. rewrite awrite_out in Hc by exact H. auto.
Qed.

Lemma touches_false (a : @astate V) p i : touches a p i = false -> forall c, In c (cells p i) -> ~ In c (all_cells (aptr a) (an a)).
Proof.
  unfold touches. intros H c Hc Ha. apply Bool.not_true_iff_false in H. apply H. apply existsb_exists. exists c. split; [exact Hc|].
  apply existsb_exists. exists c. split; [exact Ha|apply Z.eqb_refl].
Qed.

(** Writing to an arbitrary user array of one element. *)
Lemma sput_one m p i v : NoDup (cells p i) -> (forall c, In c (cells p i) -> m c <> None) ->
  exists m', sput m p i v = Some m' /\ sget m' p i = Some v /\ (forall a, ~ In a (cells p i) -> m' a = m a) /\ same_mapped m m'.
Proof.
  intros Nc Mc. destruct (cells2 p i) as (a & b & E & G & P). rewrite E in *.
  assert (a <> b) by (inversion Nc as [|? ? Na _]; subst; intros ->; apply Na; left; reflexivity).
  rewrite P, (mstore_mapped m a) by (apply Mc; left; reflexivity). cbn [bind].
  assert (Mb : mupd m a (fst v) b <> None) by (rewrite mupd_other by congruence; apply Mc; right; left; reflexivity).
  rewrite (mstore_mapped _ b) by exact Mb. eexists. split; [reflexivity|]. split; [|split].
  - rewrite G. unfold mload. rewrite mupd_same, mupd_other, mupd_same by congruence. cbn [bind]. destruct v; reflexivity.
  - intros x Hx. rewrite mupd_other, mupd_other; [reflexivity| |]; intros ->; apply Hx; [left|right; left]; reflexivity.
  - eapply same_trans; [apply mupd_mapped, Mc; left; reflexivity|apply mupd_mapped; exact Mb].
Qed.
Lemma sget_one m p i : (forall c, In c (cells p i) -> m c <> None) -> exists v, sget m p i = Some v.
Proof.
  intros Mc. destruct (cells2 p i) as (a & b & E & G & _). rewrite E in *. rewrite G. unfold mload.
  pose proof (Mc a (or_introl eq_refl)) as A. pose proof (Mc b (or_intror (or_introl eq_refl))) as B.
  destruct (m a) as [x|]; [|contradiction]. destruct (m b) as [y|]; [|contradiction]. cbn. eauto.
Qed.

Lemma h_cells m s (a : @astate V) h c : inv m s a h -> In c (all_cells h (an a)) -> In c (all_cells (aptr a) (an a)) \/ ~ user_cell OWN c.
Proof.
  intros I Hc. pose proof (i_rel _ _ _ _ I) as R. destruct (use_user s).
  - left. rewrite (all_cells_same _ _ _ R). exact Hc.
  - right. intros U. exact (U _ _ R Hc).
Qed.

Lemma inv_step m s (a : @astate V) h o a' e : own_ok F m OWN -> inv m s a h -> op_ok m OWN o -> spec a o = Some (a', e) ->
  exists m' s' h' r, exec F m s o = Some (m', s', r) /\ agrees e r /\ inv m' s' a' h' /\ same_mapped m m' /\
    (forall c, ~ In c (all_cells (aptr a) (an a)) -> user_cell OWN c -> ~ In c (footprint [o]) -> m' c = m c) /\
    (forall c, In c (all_cells (aptr a') (an a')) -> In c (all_cells (aptr a) (an a)) \/ In c (footprint [o])).
Proof.
  intros OK I OP SP. pose proof (h_cells m s a h) as HC. pose proof (fun c => HC c I) as HC'. clear HC. rename HC' into HC.
  destruct I as [Iu Id Iz Ia Iown Au Ah Ir Ib Ih Im Idom]. pose proof Au as [Aua Auc].
  assert (UC : forall c i, In c (cells h i) -> i < an a -> In c (all_cells h (an a))) by (intros; eapply in_cells; eassumption).
  destruct o as [p i v|p i|i v|i|b|b|p n fr]; cbn [spec exec op_ok footprint] in *.
  - (* UWrite *)
    destruct OP as [Nc OP]. destruct (aadm a && touches a p i) eqn:Et; [discriminate|]. cbn [negb] in SP. injection SP as <- <-.
    destruct (sput_one m p i v Nc (fun c H => proj1 (OP c H))) as (m' & E & G & U & S). rewrite E. cbn [bind].
    exists m', s, h, None. split; [reflexivity|]. split; [intros ?; discriminate|]. split; [|split; [exact S|split]].
    + constructor; cbn [an aadm aptr ablock amem]; auto.
      * eapply ua_same; eassumption.
      * eapply same_array; eassumption.
      * intros Ea j w Hj Hw. rewrite <- (Ib Ea j w Hj Hw). apply sget_cells. intros c Hc. apply U. intros Hp.
        rewrite Ea in Et. cbn [andb] in Et. destruct (HC c (UC c j Hc Hj)) as [X|X]; [exact (touches_false a p i Et c Hp X)|].
        apply X. apply OP. exact Hp.
      * intros Ea c Hc. rewrite Ea in Et. cbn [andb] in Et. rewrite awrite_out; [auto|]. intros Hp. exact (touches_false a p i Et c Hp Hc).
      * apply awrite_knows; [exact Nc| |intros w Hw; injection Hw as <-; exact G]. intros c x Hc Hx. rewrite U by exact Hc. auto.
      * apply awrite_dom; [exact Idom|]. intros c Hc. apply OP. exact Hc.
    + intros c _ _ Hc. apply U. rewrite app_nil_r in Hc. exact Hc.
    + auto.
  - (* URead *)
    destruct OP as [Nc OP]. destruct (aadm a && touches a p i) eqn:Et; [discriminate|]. cbn [negb] in SP. injection SP as <- <-.
    destruct (sget_one m p i (fun c H => proj1 (OP c H))) as (w & Ew). rewrite Ew. cbn [bind].
    exists m, s, h, (Some w). split; [reflexivity|]. split; [|split; [constructor; auto|split; [apply same_refl|split; auto]]].
    intros v Hv. rewrite (aread_knows m (amem a) p i v Im Hv) in Ew. symmetry; exact Ew.
  - (* Put *)
    destruct (aadm a) eqn:Ea; [|discriminate]. cbn [andb] in SP. destruct (Nat.ltb_spec i (an a)) as [Hi|]; [|discriminate].
    injection SP as <- <-. unfold mput. rewrite Iz. assert (i <? an a = true) as -> by (apply Nat.ltb_lt; exact Hi). rewrite Id. cbn [bind].
    destruct (sput_spec m h (an a) i v Ah Hi) as (m' & E & G & U & S). rewrite E. cbn [bind].
    exists m', s, h, None. split; [reflexivity|]. split; [intros ?; discriminate|]. split; [|split; [exact S|split]].
    + constructor; cbn [an aadm aptr ablock amem]; auto.
      * eapply ua_same; eassumption.
      * eapply same_array; eassumption.
      * intros _ j w Hj Hw. unfold upd in Hw. destruct (Nat.eqb_spec j i) as [->|Ne]; [rewrite <- Hw; exact G|].
        rewrite (sput_other m m' h (an a) i j) by assumption. apply Ib; auto.
      * intros c x Hx. rewrite U; [auto|]. intros Hc. destruct (HC c (UC c i Hc Hi)) as [X|X].
        -- rewrite (Ih eq_refl c X) in Hx. discriminate.
        -- apply X, Idom. congruence.
    + intros c Hc1 Hc2 _. apply U. intros Hc. destruct (HC c (UC c i Hc Hi)); auto.
    + auto.
  - (* Get *)
    destruct (aadm a) eqn:Ea; [|discriminate]. cbn [andb] in SP. destruct (Nat.ltb_spec i (an a)) as [Hi|]; [|discriminate].
    injection SP as <- <-. unfold mget. rewrite Iz. assert (i <? an a = true) as -> by (apply Nat.ltb_lt; exact Hi). rewrite Id. cbn [bind].
    destruct (sget_some m h (an a) i Ah Hi) as (w & Ew). rewrite Ew. cbn [bind].
    exists m, s, h, (Some w). split; [reflexivity|]. split; [|split; [|split; [apply same_refl|split; auto]]].
    + intros v Hv. rewrite (Ib eq_refl i v Hi Hv) in Ew. symmetry; exact Ew.
    + constructor; auto; rewrite Ea; auto.
  - (* Admit *)
    injection SP as <- <-. unfold admit. rewrite Ia, Id, Iu, Iz.
    destruct (aadm a) eqn:Ea; cbn [negb andb].
    + cbn [bind fst snd]. eexists m, _, h, None. split; [reflexivity|]. split; [intros ?; discriminate|].
      split; [|split; [apply same_refl|split; auto]].
      constructor; cbn [user use_user hdata hsize own admitted]; auto; rewrite Ea; auto.
    + assert (K1 : forall m', knows m' (amem a) -> knows m' (awrite_all (amem a) (aptr a) (an a) unknown)).
      { intros m' K. apply awrite_all_knows; [apply Aua|intros; auto|discriminate]. }
      assert (K2 : users_only (awrite_all (amem a) (aptr a) (an a) unknown)) by (apply awrite_all_dom; assumption).
      assert (K3 : forall c, In c (all_cells (aptr a) (an a)) -> awrite_all (amem a) (aptr a) (an a) unknown c = None)
        by (intros; apply awrite_all_unknown; [apply Aua|assumption]).
      destruct (use_user s) eqn:Euse; cbn [negb andb].
      * cbn [bind fst snd]. eexists m, _, h, None. split; [reflexivity|]. split; [intros ?; discriminate|].
        split; [|split; [apply same_refl|split; auto]].
        constructor; cbn [user use_user hdata hsize own admitted an aadm aptr ablock amem]; auto.
        intros _ i v Hi Hv. destruct b; [|discriminate]. rewrite <- (sget_same m _ _ i (Ir i)). apply (aread_knows m (amem a)); assumption.
      * destruct b.
        -- destruct (copy_loop h (aptr a) (an a) m Ah Aua) as (m' & E & G & U & S).
           { intros c Hh Hu. exact (Auc c Hu _ _ Ir Hh). }
           assert (KU : forall c, user_cell OWN c -> m' c = m c) by (intros c Hc; apply U; intros Hh; exact (Hc _ _ Ir Hh)).
           rewrite E. cbn [bind fst snd]. eexists m', _, h, None. split; [reflexivity|]. split; [intros ?; discriminate|].
           split; [|split; [exact S|split; auto]].
           constructor; cbn [user use_user hdata hsize own admitted an aadm aptr ablock amem]; auto.
           ++ eapply ua_same; eassumption.
           ++ eapply same_array; eassumption.
           ++ intros _ i v Hi Hv. rewrite G by assumption. apply (aread_knows m (amem a)); assumption.
           ++ apply K1. intros c x Hx. rewrite KU; [auto|]. apply Idom. congruence.
        -- cbn [bind fst snd]. eexists m, _, h, None. split; [reflexivity|]. split; [intros ?; discriminate|].
           split; [|split; [apply same_refl|split; auto]].
           constructor; cbn [user use_user hdata hsize own admitted an aadm aptr ablock amem]; auto. discriminate.
  - (* Release *)
    injection SP as <- <-. unfold release. rewrite Ia, Id, Iu, Iz.
    destruct (aadm a) eqn:Ea; cbn [negb andb].
    + assert (K2 : forall vs, users_only (awrite_all (amem a) (aptr a) (an a) vs)) by (intros; apply awrite_all_dom; assumption).
      destruct (use_user s) eqn:Euse; cbn [negb andb].
      * cbn [bind fst snd]. eexists m, _, h, None. split; [reflexivity|]. split; [intros ?; discriminate|].
        split; [|split; [apply same_refl|split; auto]].
        constructor; cbn [user use_user hdata hsize own admitted an aadm aptr ablock amem]; auto; try discriminate.
        apply awrite_all_knows; [apply Aua|intros; auto|]. intros i w Hi Hw. destruct b; [|discriminate].
        rewrite (sget_same m _ _ i (Ir i)). apply Ib; auto.
      * destruct b.
        -- destruct (copy_loop (aptr a) h (an a) m Aua Ah) as (m' & E & G & U & S).
           { intros c Hu Hh. exact (Auc c Hu _ _ Ir Hh). }
           rewrite E. cbn [bind fst snd]. eexists m', _, h, None. split; [reflexivity|]. split; [intros ?; discriminate|].
           split; [|split; [exact S|split; auto]].
           constructor; cbn [user use_user hdata hsize own admitted an aadm aptr ablock amem]; auto; try discriminate.
           ++ eapply ua_same; eassumption.
           ++ eapply same_array; eassumption.
           ++ apply awrite_all_knows; [apply Aua| |].
              ** intros c x Hc Hx. rewrite U by exact Hc. auto.
              ** intros i w Hi Hw. rewrite G by exact Hi. apply Ib; auto.
        -- cbn [bind fst snd]. eexists m, _, h, None. split; [reflexivity|]. split; [intros ?; discriminate|].
           split; [|split; [apply same_refl|split; auto]].
           constructor; cbn [user use_user hdata hsize own admitted an aadm aptr ablock amem]; auto; try discriminate.
           apply awrite_all_knows; [apply Aua|intros; auto|discriminate].
    + cbn [bind fst snd]. exists m, s, h, None. split; [reflexivity|]. split; [intros ?; discriminate|].
      split; [|split; [apply same_refl|split; auto]]. constructor; auto; rewrite Ea; auto.
  - (* Rebind *)
    destruct (aadm a) eqn:Ea; [discriminate|]. cbn [negb] in SP. injection SP as <- <-.
    destruct OP as (Ap & If). destruct (OK fr n If) as [Ff Af]. unfold rebind. rewrite Ia. cbn [negb]. rewrite app_nil_r.
    destruct (compatible F (Some p)) eqn:Ec.
    + destruct (cast_ok p Ec) as (q & Eq & Cq). rewrite Eq. cbn [bind].
      eexists m, _, q, None. split; [reflexivity|]. split; [intros ?; discriminate|].
      split; [|split; [apply same_refl|split; auto]].
      constructor; cbn [user use_user hdata hsize own admitted an aadm aptr ablock amem]; auto; try discriminate.
      eapply cells_array; [exact Cq|apply Ap].
    + destruct (own s && (hsize s =? n)) eqn:Eo.
      * apply andb_prop in Eo as [Eo1 Eo2]. apply Nat.eqb_eq in Eo2. cbn [bind].
        eexists m, _, h, None. split; [reflexivity|]. split; [intros ?; discriminate|].
        split; [|split; [apply same_refl|split; auto]].
        rewrite Iown in Eo1. destruct (use_user s); [discriminate|].
        constructor; cbn [user use_user hdata hsize own admitted an aadm aptr ablock amem]; auto; try discriminate;
        rewrite <- Eo2, Iz; assumption.
      * cbn [bind]. eexists m, _, fr, None. split; [reflexivity|]. split; [intros ?; discriminate|].
        split; [|split; [apply same_refl|split; auto]].
        constructor; cbn [user use_user hdata hsize own admitted an aadm aptr ablock amem]; auto; discriminate.
Qed.

Lemma footprint_cons (o : @op V) l : footprint (o :: l) = footprint [o] ++ footprint l.
Proof. destruct o; cbn [footprint]; rewrite ?app_nil_r; reflexivity. Qed.

Lemma run_lemma l : forall m s a h a' es,
  own_ok F m OWN -> inv m s a h -> Forall (op_ok m OWN) l -> spec_run a l = Some (a', es) ->
  exists m' s' rs, run F m s l = Some (m', s', rs) /\ Forall2 agrees es rs /\ knows m' (amem a') /\
    (forall c, ~ In c (all_cells (aptr a) (an a)) -> user_cell OWN c -> ~ In c (footprint l) -> m' c = m c).
Proof.
  induction l as [|o l IH]; intros m s a h a' es OK I OP SR; cbn [spec_run run] in *.
  - injection SR as <- <-. exists m, s, []. split; [reflexivity|]. split; [constructor|]. split; [apply (i_m _ _ _ _ I)|reflexivity].
  - destruct (spec a o) as [[a1 e]|] eqn:Es; [|discriminate]. cbn [bind fst snd] in SR.
    destruct (spec_run a1 l) as [[a2 es']|] eqn:Er; [|discriminate]. cbn [bind fst snd] in SR. injection SR as <- <-.
    inversion OP as [|? ? OPo OPl]; subst.
    destruct (inv_step m s a h o a1 e OK I OPo Es) as (m1 & s1 & h1 & r & X & Ag & I1 & S1 & Fr & Cs).
    rewrite X. cbn [bind].
    destruct (IH m1 s1 a1 h1 a2 es') as (m2 & s2 & rs & R & Ags & Kn & Fr2); auto.
    + intros q n Hq. destruct (OK q n Hq) as [A B]. split; [exact A|eapply same_array; eassumption].
    + eapply Forall_impl; [|exact OPl]. intros o' Ho. destruct o'; cbn [op_ok] in *; auto.
      * destruct Ho as [A B]. split; [exact A|]. intros c Hc. destruct (B c Hc) as [B1 B2]. split; [|exact B2]. intros E. apply B1, S1, E.
      * destruct Ho as [A B]. split; [exact A|]. intros c Hc. destruct (B c Hc) as [B1 B2]. split; [|exact B2]. intros E. apply B1, S1, E.
      * destruct Ho as [A B]. split; [eapply ua_same; eassumption|exact B].
    + rewrite R. cbn [bind]. eexists m2, s2, _. split; [reflexivity|]. split; [constructor; assumption|]. split; [exact Kn|].
      intros c C1 C2 C3. rewrite footprint_cons, in_app_iff in C3. rewrite Fr2; [apply Fr; tauto| |exact C2|tauto].
      intros Hc. destruct (Cs c Hc); tauto.
Qed.

(** A block created on user storage. *)
Lemma history_lemma m n u fresh known l a' es :
  own_ok F m OWN -> In (fresh, n) OWN -> user_array m OWN u n -> Forall (op_ok m OWN) l ->
  (forall c x, known c = Some x -> m c = Some x /\ user_cell OWN c) ->
  spec_run (mka n false u unknown known) l = Some (a', es) ->
  exists s m' s' rs, make_user F n (Some u) fresh = Some s /\ run F m s l = Some (m', s', rs) /\ Forall2 agrees es rs /\
    knows m' (amem a') /\
    (forall c, ~ In c (all_cells u n) -> user_cell OWN c -> ~ In c (footprint l) -> m' c = m c).
Proof.
  intros OK If Au OP Kn SR. destruct (OK fresh n If) as [Ff Af].
  assert (K1 : knows m known) by (intros c x H; apply (Kn c x H)).
  assert (K2 : users_only known) by (intros c H; destruct (known c) as [x|] eqn:E; [apply (Kn c x E)|congruence]).
  unfold make_user. destruct (compatible F (Some u)) eqn:Ec.
  - destruct (cast_ok u Ec) as (q & Eq & Cq). rewrite Eq. cbn [bind].
    assert (I : inv m (mkmgr (Some u) true (Some q) n false false) (mka n false u unknown known) q).
    { constructor; cbn [user use_user hdata hsize own admitted an aadm aptr ablock amem]; auto; try discriminate.
      eapply cells_array; [exact Cq|apply Au]. }
    destruct (run_lemma l m _ _ _ a' es OK I OP SR) as (m' & s' & rs & R & Ag & Kn' & Fr). eexists _, m', s', rs. eauto.
  - assert (I : inv m (mkmgr (Some u) false (Some fresh) n true false) (mka n false u unknown known) fresh).
    { constructor; cbn [user use_user hdata hsize own admitted an aadm aptr ablock amem]; auto; discriminate. }
    destruct (run_lemma l m _ _ _ a' es OK I OP SR) as (m' & s' & rs & R & Ag & Kn' & Fr). eexists _, m', s', rs. eauto.
Qed.
End Hist.
End P.
