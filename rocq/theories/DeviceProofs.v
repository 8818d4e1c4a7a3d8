(** Lemmas about host and device copies. *)
From Coq Require Import List Bool Arith Lia.
From Verif Require Import Base Device.
Import ListNotations.

Section DeviceProofs.
Context {V : Type}.
Variable compat : nat -> bool.
Notation content := (@content V).
Notation ablock := (ablock V).
Notation mgr := (mgr V).

Definition at_ (f : option content) (j : nat) : option V :=
  match f with Some g => g j | None => None end.

Record Rel (a : ablock) (s : mgr) (c : care) : Prop := {
  r_usr : usr s = a_usr a;
  r_n : size s = a_n a;
  r_adm : adm s = a_adm a;
  r_bound : bound s =
    match a_usr a with Some id => if a_shared a then Some id else None | None => None end;
  r_hv : hvalid s = on_host c;
  r_dv : dvalid s = match device c with Behind => false | _ => true end;
  r_um : forall id j, (on_host c = false -> bound s = Some id -> a_n a <= j) ->
    agrees (a_umem a id j) (umem s id j);
  r_host : on_host c = true -> forall j, j < a_n a -> agrees (data a j) (at_ (hostmem s) j);
  r_own : usr s <> None -> hostmem s <> None;
  r_behind : device c = Behind -> on_host c = true /\ hostmem s <> None;
  r_dev : on_host c = false \/ (device c = Uptodate /\ a_adm a = true) ->
    forall j, j < a_n a -> agrees (data a j) (at_ (dev s) j);
  r_devs : on_host c = false -> dev s <> None;
  r_rel : a_adm a = false -> on_host c = true;
  r_relu : a_adm a = false -> a_usr a <> None
}.

Lemma agrees_none : forall (c : option V), agrees None c.
Proof. intros c v H. discriminate H. Qed.
Lemma agrees_refl : forall (c : option V), agrees c c.
Proof. intros c v H. exact H. Qed.
Lemma over_lt : forall n (f g : content) j, j < n -> over n f g j = f j.
Proof. intros n f g j H. unfold over. apply Nat.ltb_lt in H. rewrite H. reflexivity. Qed.
Lemma over_ge : forall n (f g : content) j, n <= j -> over n f g j = g j.
Proof. intros n f g j H. unfold over. apply Nat.ltb_ge in H. rewrite H. reflexivity. Qed.

Lemma hostmem_set : forall (s : mgr) h, hostmem (set_host s h) = Some h.
Proof.
  intros s h. unfold set_host, hostmem. destruct (bound s) as [id|] eqn:B; cbn.
  - rewrite B, Nat.eqb_refl. reflexivity.
  - rewrite B. reflexivity.
Qed.

Lemma alloc_ok : forall a s c, Rel a s c ->
  Rel a (host_alloc s) c /\ hostmem (host_alloc s) <> None.
Proof.
  intros a s c R. unfold host_alloc.
  destruct (bound s) as [id|] eqn:B; [split; [exact R|]|].
  - unfold hostmem. rewrite B. discriminate.
  - destruct (own s) as [o|] eqn:O; [split; [exact R|]|].
    + unfold hostmem. rewrite B. rewrite O. discriminate.
    + assert (HN : hostmem s = None) by (unfold hostmem; rewrite B; exact O).
      split; [|unfold hostmem; cbn; rewrite B; discriminate].
      destruct R. constructor; cbn; auto.
      * intros H j Hj. unfold hostmem. cbn. rewrite B. cbn.
        generalize (r_host0 H j Hj). rewrite HN. cbn. auto.
      * intros _. unfold hostmem. cbn. rewrite B. discriminate.
      * intros H. split; [apply r_behind0; exact H|].
        unfold hostmem. cbn. rewrite B. discriminate.
Qed.

Lemma data_shared : forall (a : ablock) id, a_usr a = Some id -> a_shared a = true ->
  data a = a_umem a id.
Proof. intros a id U S. unfold data. rewrite U, S. reflexivity. Qed.

Lemma sync_host_ok : forall a s c, Rel a s c ->
  exists s' h, sync_host s = Some s' /\ hostmem s' = Some h /\
    Rel a s' {| device := device c; on_host := true |}.
Proof.
  intros a s c R. unfold sync_host. cbv zeta.
  destruct (alloc_ok a s c R) as [R1 H1]. clear R. revert R1 H1.
  generalize (host_alloc s) as t. clear s. intros s R HN.
  destruct (hostmem s) as [h|] eqn:H; [clear HN|contradiction].
  rewrite (r_hv _ _ _ R). destruct (on_host c) eqn:O.
  - exists s, h. split; [reflexivity|split; [exact H|]].
    destruct c as [d o]. cbn in *. subst o. exact R.
  - destruct (dev s) as [d|] eqn:D; [|exfalso; exact (r_devs _ _ _ R O D)].
    cbn [bind]. eexists. eexists. split; [reflexivity|].
    assert (HM : hostmem (set_hvalid (set_host s (over (size s) d h)) true)
                 = Some (over (size s) d h)).
    { generalize (hostmem_set s (over (size s) d h)).
      unfold hostmem, set_hvalid. cbn. auto. }
    split; [exact HM|].
    assert (RD : forall j, j < a_n a -> agrees (data a j) (d j)).
    { intros j Hj. generalize (r_dev _ _ _ R (or_introl O) j Hj). rewrite D. cbn. auto. }
    assert (F : forall x, usr (set_host s x) = usr s /\ size (set_host s x) = size s /\
                adm (set_host s x) = adm s /\ bound (set_host s x) = bound s /\
                dvalid (set_host s x) = dvalid s /\ dev (set_host s x) = dev s).
    { intro x. unfold set_host. destruct (bound s) eqn:B; cbn; rewrite ?B; repeat split; reflexivity. }
    destruct (F (over (size s) d h)) as (F1 & F2 & F3 & F4 & F5 & F6).
    constructor; cbn [usr size adm bound hvalid dvalid dev set_hvalid umem device on_host].
    + rewrite F1. apply R.
    + rewrite F2. apply R.
    + rewrite F3. apply R.
    + rewrite F4. apply R.
    + reflexivity.
    + rewrite F5. apply R.
    + intros id j _. unfold set_host. destruct (bound s) as [b|] eqn:B; cbn.
      * destruct (Nat.eqb_spec id b) as [->|N].
        -- destruct (Nat.lt_ge_cases j (a_n a)) as [L|L].
           ++ rewrite over_lt by (rewrite (r_n _ _ _ R); exact L).
              assert (E : data a = a_umem a b).
              { generalize (r_bound _ _ _ R). rewrite B.
                destruct (a_usr a) as [k|] eqn:U; [|discriminate].
                destruct (a_shared a) eqn:S; [|discriminate].
                intro X. injection X as ->. apply data_shared; assumption. }
              rewrite <- E. apply RD, L.
           ++ rewrite over_ge by (rewrite (r_n _ _ _ R); exact L).
              unfold hostmem in H. rewrite B in H. injection H as <-.
              apply (r_um _ _ _ R). intros _ _. exact L.
        -- apply (r_um _ _ _ R). intros _ X. rewrite B in X. injection X as ->. contradiction.
      * apply (r_um _ _ _ R). intros _ X. rewrite B in X. discriminate X.
    + intros _ j Hj. rewrite HM. cbn. rewrite over_lt by (rewrite (r_n _ _ _ R); exact Hj).
      apply RD, Hj.
    + intros _. rewrite HM. discriminate.
    + intros X. exfalso. destruct (r_behind _ _ _ R X) as [Y _]. rewrite O in Y. discriminate Y.
    + rewrite F6, D. intros _. exact RD.
    + discriminate.
    + reflexivity.
    + apply R.
Qed.

Lemma sync_dev_ok : forall a s c, Rel a s c -> a_adm a = true -> device c <> Unaware ->
  exists s' d, sync_dev s = Some s' /\ dev s' = Some d /\
    Rel a s' {| device := Uptodate; on_host := on_host c |}.
Proof.
  intros a s c R AD NU. unfold sync_dev. cbv zeta.
  assert (R1 : Rel a (dev_alloc s) c).
  { unfold dev_alloc. destruct (dev s) as [d|] eqn:D; [exact R|].
    destruct R. constructor; cbn; auto.
    - intros X j Hj. generalize (r_dev0 X j Hj). rewrite D. cbn. auto.
    - discriminate. }
  assert (D1 : dev (dev_alloc s) <> None).
  { unfold dev_alloc. destruct (dev s) eqn:D; cbn; rewrite ?D; discriminate. }
  revert R1 D1. generalize (dev_alloc s) as t. clear s R. intros s R DN.
  destruct (dev s) as [d|] eqn:D; [clear DN|contradiction].
  rewrite (r_dv _ _ _ R).
  destruct (device c) eqn:DC; [| |contradiction].
  - exists s, d. split; [reflexivity|split; [exact D|]].
    destruct c as [dd o]. cbn in *. subst dd. exact R.
  - destruct (r_behind _ _ _ R DC) as [O HN].
    destruct (hostmem s) as [h|] eqn:H; [|contradiction].
    cbn [bind]. eexists. eexists. split; [reflexivity|]. cbn. split; [reflexivity|].
    destruct R. constructor; cbn; auto.
    + intros _ j Hj. rewrite r_n0. rewrite over_lt by exact Hj.
      generalize (r_host0 O j Hj). rewrite H. cbn. auto.
    + intros _ X. discriminate X.
Qed.

(** Writing host memory behind the manager's back. *)
Lemma write_host : forall a s c h f' h',
  Rel a s c -> on_host c = true -> hostmem s = Some h ->
  (forall j, j < a_n a -> agrees (f' j) (h' j)) ->
  (forall j, a_n a <= j -> f' j = data a j /\ h' j = h j) ->
  Rel (with_data a f') (set_host s h') {| device := unnoticed (device c); on_host := true |}.
Proof.
  intros a s c h f' h' R O H L G.
  assert (DB : match unnoticed (device c) with Behind => false | _ => true end
             = match device c with Behind => false | _ => true end)
    by (destruct (device c); reflexivity).
  assert (UB : unnoticed (device c) <> Uptodate) by (destruct (device c); discriminate).
  assert (HS : hostmem (set_host s h') = Some h') by apply hostmem_set.
  unfold with_data. unfold set_host in *.
  pose proof (r_bound _ _ _ R) as RB.
  destruct (a_usr a) as [id|] eqn:U; [destruct (a_shared a) eqn:S|].
  - rewrite RB in *.
    assert (E : data a = a_umem a id) by (apply data_shared; assumption).
    assert (HE : h = umem s id) by (unfold hostmem in H; rewrite RB in H; congruence).
    destruct R. constructor; cbn [a_usr a_n a_adm a_shared a_umem with_umem set_umem
      usr size adm bound hvalid dvalid umem dev device on_host]; auto.
    + rewrite r_hv0. exact O.
    + rewrite r_dv0. symmetry. exact DB.
    + intros k j _. destruct (Nat.eqb_spec k id) as [->|N].
      * destruct (Nat.lt_ge_cases j (a_n a)) as [Lj|Lj]; [apply L, Lj|].
        destruct (G j Lj) as [-> ->]. rewrite E, HE. apply r_um0.
        intros X. rewrite O in X. discriminate X.
      * apply r_um0. intros X. rewrite O in X. discriminate X.
    + intros _ j Hj. rewrite HS. unfold data. cbn. rewrite U, S, Nat.eqb_refl.
      apply L, Hj.
    + intros _. rewrite HS. discriminate.
    + intros _. rewrite HS. split; [reflexivity|discriminate].
    + intros [X|[X _]]; [discriminate X|contradiction].
    + discriminate.
  - rewrite RB in *.
    destruct R. constructor; cbn [a_usr a_n a_adm a_shared a_umem with_own set_own
      usr size adm bound hvalid dvalid umem dev device on_host]; auto.
    + rewrite r_hv0. exact O.
    + rewrite r_dv0. symmetry. exact DB.
    + intros k j _. apply r_um0. intros X. rewrite O in X. discriminate X.
    + intros _ j Hj. rewrite HS. unfold data. cbn. rewrite U, S. apply L, Hj.
    + intros _. rewrite HS. discriminate.
    + intros _. rewrite HS. split; [reflexivity|discriminate].
    + intros [X|[X _]]; [discriminate X|contradiction].
    + discriminate.
  - rewrite RB in *.
    destruct R. constructor; cbn [a_usr a_n a_adm a_shared a_umem with_own set_own
      usr size adm bound hvalid dvalid umem dev device on_host]; auto.
    + rewrite r_hv0. exact O.
    + rewrite r_dv0. symmetry. exact DB.
    + intros k j _. apply r_um0. intros X. rewrite O in X. discriminate X.
    + intros _ j Hj. rewrite HS. unfold data. cbn. rewrite U. apply L, Hj.
    + intros _. rewrite HS. discriminate.
    + intros _. rewrite HS. split; [reflexivity|discriminate].
    + intros [X|[X _]]; [discriminate X|contradiction].
    + discriminate.
Qed.

(** Marking the device copy as out of date. *)
Lemma mark_behind : forall a s c,
  Rel a s c -> on_host c = true -> hostmem s <> None ->
  Rel a (set_dvalid s false) {| device := Behind; on_host := true |}.
Proof.
  intros a s c R O H. destruct R. constructor; cbn; auto.
  - rewrite r_hv0. exact O.
  - intros id j _. apply r_um0. intros X. rewrite O in X. discriminate X.
  - intros [X|[X _]]; discriminate X.
  - discriminate.
Qed.

(** Writing the device copy. *)
Lemma write_dev : forall a s c d f' d',
  Rel a s c -> device c = Uptodate -> a_adm a = true ->
  (forall j, j < a_n a -> agrees (f' j) (d' j)) ->
  (forall j, a_n a <= j -> f' j = data a j) ->
  dev s = Some d ->
  Rel (with_data a f') (set_dev (set_hvalid s false) (Some d'))
      {| device := Uptodate; on_host := false |}.
Proof.
  intros a s c d f' d' R U0 AD L G D.
  pose proof (r_bound _ _ _ R) as RB.
  unfold with_data.
  assert (HM : hostmem (set_dev (set_hvalid s false) (Some d')) = hostmem s) by reflexivity.
  destruct (a_usr a) as [id|] eqn:U; [destruct (a_shared a) eqn:S|].
  - assert (E : data a = a_umem a id) by (apply data_shared; assumption).
    destruct R. constructor; cbn [a_usr a_n a_adm a_shared a_umem with_umem
      usr size adm bound hvalid dvalid umem dev device on_host set_dev set_hvalid]; auto.
    + rewrite r_dv0, U0. reflexivity.
    + intros k j X. destruct (Nat.eqb_spec k id) as [->|N].
      * rewrite RB in X. rewrite (G j (X eq_refl eq_refl)), E.
        apply r_um0. intros _ _. apply X; auto.
      * apply r_um0. intros _ Y. rewrite RB in Y. injection Y as ->. contradiction.
    + discriminate.
    + discriminate.
    + intros _ j Hj. unfold data. cbn. rewrite U, S, Nat.eqb_refl. apply L, Hj.
    + discriminate.
    + rewrite AD. discriminate.
  - destruct R. constructor; cbn [a_usr a_n a_adm a_shared a_umem with_own
      usr size adm bound hvalid dvalid umem dev device on_host set_dev set_hvalid]; auto.
    + rewrite r_dv0, U0. reflexivity.
    + discriminate.
    + discriminate.
    + intros _ j Hj. unfold data. cbn. rewrite U, S. apply L, Hj.
    + discriminate.
    + rewrite AD. discriminate.
  - destruct R. constructor; cbn [a_usr a_n a_adm a_shared a_umem with_own
      usr size adm bound hvalid dvalid umem dev device on_host set_dev set_hvalid]; auto.
    + rewrite r_dv0, U0. reflexivity.
    + discriminate.
    + discriminate.
    + intros _ j Hj. unfold data. cbn. rewrite U. apply L, Hj.
    + discriminate.
    + rewrite AD. discriminate.
Qed.

Definition out_ok (x y : option (option V)) : Prop :=
  match x, y with
  | Some c, Some d => agrees c d
  | None, None => True
  | _, _ => False
  end.

Lemma agrees_set1 : forall (f h : content) i v n,
  (forall j, j < n -> agrees (f j) (h j)) ->
  forall j, j < n -> agrees (set1 f i v j) (set1 h i v j).
Proof.
  intros f h i v n H j Hj. unfold set1. destruct (j =? i); [apply agrees_refl|apply H, Hj].
Qed.

Lemma set1_ge : forall (f : content) i v n j, i < n -> n <= j -> set1 f i v j = f j.
Proof.
  intros f i v n j Hi Hj. unfold set1. destruct (Nat.eqb_spec j i); [lia|reflexivity].
Qed.

(** One step. *)
Lemma step : forall a s c o a' out,
  Rel a s c -> careful1 c o -> op_sensible o -> spec compat a o = Some (a', out) ->
  exists s' out', exec compat s o = Some (s', out') /\ Rel a' s' (next c o) /\ out_ok out out'.
Proof.
  intros a s c o a' out R C Sn E.
  destruct o as [i|i v|i v|i|f|f|g|g|u|u|id n|id i|id i v]; cbn [spec exec next] in *.
  - (* Get *)
    destruct (a_adm a && (i <? a_n a)) eqn:B; [|discriminate]. injection E as <- <-.
    apply andb_true_iff in B as [BA BI]. apply Nat.ltb_lt in BI.
    destruct (sync_host_ok a s c R) as (s' & h & H1 & H2 & R').
    unfold get. rewrite H1. cbn [bind]. rewrite H2. cbn [bind fst snd].
    eexists. eexists. split; [reflexivity|split; [exact R'|]].
    cbn. generalize (r_host _ _ _ R' eq_refl i BI). rewrite H2. cbn. auto.
  - (* Put *)
    destruct (a_adm a && (i <? a_n a)) eqn:B; [|discriminate]. injection E as <- <-.
    apply andb_true_iff in B as [BA BI]. apply Nat.ltb_lt in BI.
    destruct (sync_host_ok a s c R) as (s' & h & H1 & H2 & R').
    unfold put. rewrite H1. cbn [bind]. rewrite H2. cbn [bind].
    eexists. eexists. split; [reflexivity|split; [|exact Logic.I]].
    eapply mark_behind; [eapply write_host; [exact R'|reflexivity|exact H2| |]| |].
    + apply agrees_set1. intros j Hj. generalize (r_host _ _ _ R' eq_refl j Hj).
      rewrite H2. cbn. auto.
    + intros j Hj. rewrite !(set1_ge _ i v (a_n a)) by assumption. auto.
    + reflexivity.
    + rewrite hostmem_set. discriminate.
  - (* Set_ *)
    destruct (a_adm a && (i <? a_n a)) eqn:B; [|discriminate]. injection E as <- <-.
    apply andb_true_iff in B as [BA BI]. apply Nat.ltb_lt in BI.
    destruct (sync_host_ok a s c R) as (s' & h & H1 & H2 & R').
    unfold at_set. rewrite H1. cbn [bind]. rewrite H2. cbn [bind].
    eexists. eexists. split; [reflexivity|split; [|exact Logic.I]].
    apply (write_host a s' {| device := device c; on_host := true |} h);
      [exact R'|reflexivity|exact H2| |].
    + apply agrees_set1. intros j Hj. generalize (r_host _ _ _ R' eq_refl j Hj).
      rewrite H2. cbn. auto.
    + intros j Hj. rewrite !(set1_ge _ i v (a_n a)) by assumption. auto.
  - (* Look *)
    destruct (a_adm a && (i <? a_n a)) eqn:B; [|discriminate]. injection E as <- <-.
    apply andb_true_iff in B as [BA BI]. apply Nat.ltb_lt in BI.
    destruct (sync_host_ok a s c R) as (s' & h & H1 & H2 & R').
    unfold host_view. rewrite H1. cbn [bind]. rewrite H2. cbn [bind fst snd].
    eexists. eexists. split; [reflexivity|split; [exact R'|]].
    cbn. generalize (r_host _ _ _ R' eq_refl i BI). rewrite H2. cbn. auto.
  - (* Host *)
    destruct (a_adm a) eqn:BA; [|discriminate]. injection E as <- <-.
    destruct (sync_host_ok a s c R) as (s' & h & H1 & H2 & R').
    unfold host_access. rewrite H1. cbn [bind]. rewrite H2. cbn [bind].
    eexists. eexists. split; [reflexivity|split; [|exact Logic.I]].
    eapply mark_behind; [eapply write_host; [exact R'|reflexivity|exact H2| |]| |].
    + intros j Hj. rewrite (r_n _ _ _ R'). rewrite !over_lt by exact Hj.
      apply (Sn (a_n a)); [|exact Hj]. intros k Hk.
      generalize (r_host _ _ _ R' eq_refl k Hk). rewrite H2. cbn. auto.
    + intros j Hj. rewrite (r_n _ _ _ R'). rewrite !over_ge by exact Hj. auto.
    + reflexivity.
    + rewrite hostmem_set. discriminate.
  - (* Host2 *)
    destruct (a_adm a) eqn:BA; [|discriminate]. injection E as <- <-. cbn in C.
    destruct (r_behind _ _ _ R C) as [O HN].
    destruct (hostmem s) as [h|] eqn:H2; [|contradiction].
    unfold host_again. rewrite H2. cbn [bind].
    eexists. eexists. split; [reflexivity|split; [|exact Logic.I]].
    replace Behind with (unnoticed (device c)) by (rewrite C; reflexivity).
    apply (write_host a s c h); [exact R|exact O|exact H2| |].
    + intros j Hj. rewrite (r_n _ _ _ R). rewrite !over_lt by exact Hj.
      apply (Sn (a_n a)); [|exact Hj]. intros k Hk.
      generalize (r_host _ _ _ R O k Hk). rewrite H2. cbn. auto.
    + intros j Hj. rewrite (r_n _ _ _ R). rewrite !over_ge by exact Hj. auto.
  - (* Kernel *)
    destruct (a_adm a) eqn:BA; [|discriminate]. injection E as <- <-. cbn in C.
    destruct (sync_dev_ok a s c R BA C) as (s' & d & H1 & H2 & R').
    unfold dev_access. rewrite H1. cbn [bind]. rewrite H2. cbn [bind].
    eexists. eexists. split; [reflexivity|split; [|exact Logic.I]].
    eapply write_dev; [exact R'|reflexivity|exact BA| | |exact H2].
    + intros j Hj. rewrite (r_n _ _ _ R'). rewrite !over_lt by exact Hj.
      apply (Sn (a_n a)); [|exact Hj]. intros k Hk.
      assert (X := r_dev _ _ _ R' (or_intror (conj eq_refl BA)) k Hk).
      rewrite H2 in X. exact X.
    + intros j Hj. rewrite !over_ge by exact Hj. auto.
  - (* Kernel2 *)
    destruct (a_adm a) eqn:BA; [|discriminate]. injection E as <- <-. cbn in C.
    destruct (dev s) as [d|] eqn:H2; [|exfalso; exact (r_devs _ _ _ R C H2)].
    unfold dev_again. rewrite H2. cbn [bind].
    eexists. eexists. split; [reflexivity|split; [|exact Logic.I]].
    assert (XD : forall k, k < a_n a -> agrees (data a k) (d k)).
    { intros k Hk. generalize (r_dev _ _ _ R (or_introl C) k Hk). rewrite H2. cbn. auto. }
    assert (R' : Rel a s {| device := Uptodate; on_host := on_host c |}).
    { destruct R. constructor; cbn; auto.
      - rewrite r_dv0. destruct (device c) eqn:DC; auto.
        destruct (r_behind0 eq_refl) as [X _]. rewrite C in X. discriminate X.
      - discriminate. }
    assert (W : Rel (with_data a (over (a_n a) (g (data a)) (data a)))
                  (set_dev (set_hvalid s false) (Some (over (size s) (g d) d)))
                  {| device := Uptodate; on_host := false |}).
    { eapply write_dev; [exact R'|reflexivity|exact BA| | |exact H2].
      + intros j Hj. rewrite (r_n _ _ _ R). rewrite !over_lt by exact Hj.
        apply (Sn (a_n a)); [exact XD|exact Hj].
      + intros j Hj. rewrite !over_ge by exact Hj. auto. }
    assert (HV : hvalid s = false) by (rewrite (r_hv _ _ _ R); exact C).
    replace (set_dev s (Some (over (size s) (g d) d)))
      with (set_dev (set_hvalid s false) (Some (over (size s) (g d) d))); [exact W|].
    unfold set_dev, set_hvalid. cbn. rewrite HV. reflexivity.
  - (* Admit *)
    assert (DB : match unnoticed (device c) with Behind => false | _ => true end
               = match device c with Behind => false | _ => true end)
      by (destruct (device c); reflexivity).
    assert (UB : unnoticed (device c) <> Uptodate) by (destruct (device c); discriminate).
    unfold admit. rewrite (r_adm _ _ _ R). destruct (a_adm a) eqn:BA.
    + injection E as <- <-. cbn [negb andb].
      eexists. eexists. split; [reflexivity|split; [|exact Logic.I]].
      destruct R. constructor; cbn [a_usr a_n a_adm usr size adm bound hvalid dvalid umem dev
        device on_host set_adm]; auto.
      * rewrite r_dv0. symmetry. exact DB.
      * intros X. apply r_behind0. destruct (device c); [discriminate X|reflexivity|discriminate X].
      * intros [X|[X _]]; [|contradiction]. exact (r_dev0 (or_introl X)).
    + destruct (a_usr a) as [id|] eqn:U; [|discriminate]. cbn [bind] in E.
      injection E as <- <-.
      assert (O : on_host c = true) by (apply (r_rel _ _ _ R); exact BA).
      pose proof (r_bound _ _ _ R) as RB. rewrite U in RB.
      assert (HN : hostmem s <> None)
        by (apply (r_own _ _ _ R); rewrite (r_usr _ _ _ R), U; discriminate).
      destruct (a_shared a) eqn:S; rewrite RB; cbn [negb andb].
      * eexists. eexists. split; [reflexivity|split; [|exact Logic.I]].
        destruct R. constructor; cbn [a_usr a_n a_adm a_shared a_umem with_adm usr size adm bound
          hvalid dvalid umem dev device on_host set_adm]; auto.
        -- rewrite r_dv0. symmetry. exact DB.
        -- intros [X|[X _]]; [rewrite O in X; discriminate X|contradiction].
      * assert (W : forall (h : content),
          (forall j, j < a_n a -> agrees ((if u then over (a_n a) (a_umem a id) blank else blank) j) (h j)) ->
          Rel (with_adm (with_own a (if u then over (a_n a) (a_umem a id) blank else blank)) true)
              (set_adm (set_own s (Some h)) true)
              {| device := unnoticed (device c); on_host := on_host c |}).
        { intros h Hh.
          assert (HM : hostmem (set_adm (set_own s (Some h)) true) = Some h)
            by (unfold hostmem; cbn; rewrite RB; reflexivity).
          destruct R. constructor; cbn [a_usr a_n a_adm a_shared a_umem with_adm with_own usr size
            adm bound hvalid dvalid umem dev device on_host set_adm set_own]; auto.
          - rewrite r_dv0. symmetry. exact DB.
          - intros _ j Hj. rewrite HM. unfold data. cbn. rewrite U, S. apply Hh, Hj.
          - intros _. rewrite HM. discriminate.
          - intros _. rewrite HM. split; [exact O|discriminate].
          - intros [X|[X _]]; [rewrite O in X; discriminate X|contradiction]. }
        destruct (hostmem s) as [h|] eqn:H; [|contradiction].
        destruct u.
        -- rewrite (r_usr _ _ _ R), U. cbn [bind].
           eexists. eexists. split; [reflexivity|split; [|exact Logic.I]].
           unfold set_host. rewrite RB. apply W. intros j Hj.
           rewrite (r_n _ _ _ R), !over_lt by exact Hj.
           apply (r_um _ _ _ R). intros X. rewrite O in X. discriminate X.
        -- eexists. eexists. split; [reflexivity|split; [|exact Logic.I]].
           assert (HO : own s = Some h) by (unfold hostmem in H; rewrite RB in H; exact H).
           replace (set_adm s true) with (set_adm (set_own s (Some h)) true)
             by (unfold set_adm, set_own; cbn; rewrite HO; reflexivity).
           apply W. intros j Hj. apply agrees_none.
  - (* Release *)
    destruct (a_usr a) as [id|] eqn:U; [|discriminate]. cbn [bind] in E. cbn in C.
    unfold release. rewrite (r_adm _ _ _ R).
    destruct (a_adm a) eqn:BA; injection E as <- <-; cbn [negb].
    + pose proof (r_bound _ _ _ R) as RB. rewrite U in RB.
      assert (HN : hostmem s <> None)
        by (apply (r_own _ _ _ R); rewrite (r_usr _ _ _ R), U; discriminate).
      assert (W : forall f (x : content),
        (forall k j, agrees ((if k =? id then f else a_umem a k) j) ((if k =? id then x else umem s k) j)) ->
        (a_shared a = true -> f = a_umem a id /\ x = umem s id) ->
        Rel (with_adm (with_umem a id f) false) (set_adm (set_umem s id x) false) c).
      { intros f x HX HS.
        assert (HM : a_shared a = false ->
                     hostmem (set_adm (set_umem s id x) false) = hostmem s).
        { intro S. unfold hostmem. cbn. rewrite RB, S. reflexivity. }
        destruct R. constructor; cbn [a_usr a_n a_adm a_shared a_umem with_adm with_umem usr size
          adm bound hvalid dvalid umem dev device on_host set_adm set_umem]; auto.
        - intros _ j Hj. destruct (a_shared a) eqn:S.
          + destruct (HS eq_refl) as [-> ->].
            unfold data, hostmem. cbn. rewrite U, S, RB, Nat.eqb_refl. cbn.
            generalize (HX id j). rewrite Nat.eqb_refl. auto.
          + rewrite HM by reflexivity. unfold data. cbn. rewrite U, S.
            generalize (r_host0 C j Hj). unfold data. rewrite U, S. auto.
        - intros _. destruct (a_shared a) eqn:S; [|rewrite HM by reflexivity; exact HN].
          unfold hostmem. cbn. rewrite RB. discriminate.
        - intros X. split; [exact C|].
          destruct (a_shared a) eqn:S; [|rewrite HM by reflexivity; exact HN].
          unfold hostmem. cbn. rewrite RB. discriminate.
        - intros [X|[_ X]]; [rewrite C in X; discriminate X|discriminate X].
        - intros _. rewrite U. discriminate. }
      assert (UM : forall k j, agrees (a_umem a k j) (umem s k j)).
      { intros k j. apply (r_um _ _ _ R). intros X. rewrite C in X. discriminate X. }
      assert (IU : with_adm (with_umem a id (a_umem a id)) false = with_adm a false ->
                   True) by auto. clear IU.
      assert (W0 : Rel (with_adm a false) (set_adm s false) c).
      { destruct R. constructor; cbn [a_usr a_n a_adm a_shared a_umem with_adm usr size
          adm bound hvalid dvalid umem dev device on_host set_adm]; auto.
        - intros [X|[_ X]]; [rewrite C in X; discriminate X|discriminate X].
        - intros _. rewrite U. discriminate. }
      destruct (a_shared a) eqn:S; rewrite RB; cbn [andb].
      * eexists. eexists. split; [reflexivity|split; [exact W0|exact Logic.I]].
      * destruct u.
        -- rewrite (r_usr _ _ _ R), U. cbn [bind].
           destruct (hostmem s) as [h|] eqn:H; [|contradiction]. cbn [bind].
           eexists. eexists. split; [reflexivity|split; [|exact Logic.I]].
           apply W; [|discriminate].
           intros k j. destruct (Nat.eqb_spec k id) as [->|N]; [|apply UM].
           rewrite (r_n _ _ _ R). unfold over. destruct (Nat.ltb_spec j (a_n a)); [|apply UM].
           generalize (r_host _ _ _ R C j H0). unfold data. rewrite U, S, H. cbn. auto.
        -- eexists. eexists. split; [reflexivity|split; [exact W0|exact Logic.I]].
    + eexists. eexists. split; [reflexivity|split; [exact R|exact Logic.I]].
  - (* Rebind *)
    destruct (a_adm a) eqn:BA; [discriminate|]. cbn in E. injection E as <- <-.
    assert (O : on_host c = true) by (apply (r_rel _ _ _ R); exact BA).
    assert (DB : match unnoticed (device c) with Behind => false | _ => true end
               = match device c with Behind => false | _ => true end)
      by (destruct (device c); reflexivity).
    assert (UB : unnoticed (device c) <> Uptodate) by (destruct (device c); discriminate).
    unfold rebind. rewrite (r_adm _ _ _ R), BA. cbn [negb].
    assert (W : forall b o d,
      b = (if compat id then Some id else None) ->
      (compat id = false -> o <> None) ->
      Rel (mka (a_umem a) (Some id) (compat id) blank n false)
          (mk (umem s) (Some id) b o n (hvalid s) d (dvalid s) false)
          {| device := unnoticed (device c); on_host := on_host c |}).
    { intros b o d -> Ho. rewrite O.
      assert (UM : forall k j, agrees (a_umem a k j) (umem s k j)).
      { intros k j. apply (r_um _ _ _ R). intros X. rewrite O in X. discriminate X. }
      assert (HN : hostmem (mk (umem s) (Some id) (if compat id then Some id else None) o n
                       (hvalid s) d (dvalid s) false) <> None).
      { unfold hostmem. cbn. destruct (compat id) eqn:CI; [discriminate|auto]. }
      constructor; cbn [a_usr a_n a_adm a_shared a_umem usr size adm bound hvalid dvalid umem dev
          device on_host]; auto.
      - rewrite (r_hv _ _ _ R). exact O.
      - rewrite (r_dv _ _ _ R). symmetry. exact DB.
      - intros _ j Hj. unfold data, hostmem. cbn. destruct (compat id); [apply UM|apply agrees_none].
      - intros [X|[_ X]]; discriminate X.
      - discriminate.
      - discriminate. }
    destruct (compat id) eqn:CI.
    + eexists. eexists. split; [reflexivity|split; [|exact Logic.I]].
      apply W; [reflexivity|discriminate].
    + destruct (bound s) as [b|] eqn:B.
      * eexists. eexists. split; [reflexivity|split; [|exact Logic.I]].
        apply W; [reflexivity|discriminate].
      * eexists. eexists. split; [reflexivity|split; [|exact Logic.I]].
        apply W; [reflexivity|]. intros _.
        destruct (size s =? n); [|discriminate].
        intro ON. 
        assert (X : usr s = None \/ usr s <> None) by (destruct (usr s); [right; discriminate|left; reflexivity]).
        destruct X as [X|X].
        -- apply (r_relu _ _ _ R BA). rewrite <- (r_usr _ _ _ R). exact X.
        -- apply (r_own _ _ _ R X). unfold hostmem. rewrite B. exact ON.
  - (* User_get *)
    destruct (accessible a id) eqn:A; [|discriminate]. injection E as <- <-.
    eexists. eexists. split; [reflexivity|split; [exact R|]]. cbn.
    apply (r_um _ _ _ R). intros X Y. exfalso.
    assert (BA : a_adm a = true).
    { destruct (a_adm a) eqn:Q; [reflexivity|]. rewrite (r_rel _ _ _ R Q) in X. discriminate X. }
    unfold accessible in A. rewrite BA in A. cbn in A.
    rewrite (r_bound _ _ _ R) in Y. destruct (a_usr a) as [k|]; [|discriminate Y].
    destruct (a_shared a); [|discriminate Y]. injection Y as ->.
    rewrite Nat.eqb_refl in A. discriminate A.
  - (* User_put *)
    destruct (accessible a id) eqn:A; [|discriminate]. injection E as <- <-.
    eexists. eexists. split; [reflexivity|split; [|exact Logic.I]].
    pose proof (r_bound _ _ _ R) as RB.
    assert (CASE : a_adm a = false \/ bound s <> Some id).
    { unfold accessible in A. apply orb_true_iff in A as [A|A].
      - left. destruct (a_adm a); [discriminate A|reflexivity].
      - right. rewrite RB. destruct (a_usr a) as [k|]; [|discriminate].
        destruct (a_shared a); [|discriminate]. intro X. injection X as ->.
        rewrite Nat.eqb_refl in A. discriminate A. }
    assert (HM : bound s <> Some id ->
        hostmem (set_umem s id (set1 (umem s id) i v)) = hostmem s).
    { intros N. unfold hostmem. cbn. destruct (bound s) as [b|]; [|reflexivity].
      destruct (Nat.eqb_spec b id) as [->|]; [contradiction|reflexivity]. }
    assert (DM : bound s <> Some id ->
        data (with_umem a id (set1 (a_umem a id) i v)) = data a).
    { intros N. unfold data. cbn. rewrite RB in N. destruct (a_usr a) as [k|]; [|reflexivity].
      destruct (a_shared a); [|reflexivity].
      destruct (Nat.eqb_spec k id) as [->|]; [contradiction|reflexivity]. }
    assert (HMN : hostmem s <> None -> hostmem (set_umem s id (set1 (umem s id) i v)) <> None).
    { unfold hostmem. cbn. destruct (bound s); [discriminate|auto]. }
    assert (UM : forall k j, (on_host c = false -> bound s = Some k -> a_n a <= j) ->
        agrees ((if k =? id then set1 (a_umem a id) i v else a_umem a k) j)
               ((if k =? id then set1 (umem s id) i v else umem s k) j)).
    { intros k j X. destruct (Nat.eqb_spec k id) as [->|N]; [|apply (r_um _ _ _ R), X].
      unfold set1. destruct (j =? i); [apply agrees_refl|]. apply (r_um _ _ _ R), X. }
    destruct R. constructor; cbn [a_usr a_n a_adm a_shared a_umem with_umem usr size adm bound
      hvalid dvalid umem dev device on_host set_umem]; auto.
    + intros O j Hj. destruct CASE as [CA|CB].
      * destruct (bound s) as [b|] eqn:B.
        -- unfold data, hostmem. cbn. rewrite B.
           destruct (a_usr a) as [k|]; [|discriminate RB].
           destruct (a_shared a); [|discriminate RB]. injection RB as <-. cbn.
           apply UM. intros X. rewrite O in X. discriminate X.
        -- rewrite HM, DM by discriminate. apply r_host0; assumption.
      * rewrite HM, DM by assumption. apply r_host0; assumption.
    + intros X. destruct (r_behind0 X). auto.
    + intros X j Hj. destruct CASE as [CA|CB].
      * exfalso. destruct X as [X|[_ X]].
        -- rewrite (r_rel0 CA) in X. discriminate X.
        -- rewrite CA in X. discriminate X.
      * rewrite DM by assumption. apply r_dev0; assumption.
Qed.

Lemma run_ok : forall l a s c outs,
  Rel a s c -> careful c l -> Forall op_sensible l -> spec_run compat a l = Some outs ->
  exists outs', run compat s l = Some outs' /\ Forall2 agrees outs outs'.
Proof.
  induction l as [|o r IH]; intros a s c outs R C F E.
  - cbn in E. injection E as <-. exists []. split; [reflexivity|constructor].
  - destruct C as [C1 C2]. inversion F as [|? ? F1 F2]; subst.
    cbn [spec_run] in E. destruct (spec compat a o) as [[a' out]|] eqn:E1; [|discriminate].
    cbn [bind fst snd] in E.
    destruct (spec_run compat a' r) as [q|] eqn:E2; [|discriminate]. cbn [bind] in E.
    destruct (step a s c o a' out R C1 F1 E1) as (s' & out' & X & R' & OO).
    destruct (IH a' s' (next c o) q R' C2 F2 E2) as (q' & Y & Z).
    cbn [run]. rewrite X. cbn [bind fst snd]. rewrite Y. cbn [bind].
    injection E as <-.
    destruct out as [x|], out' as [y|]; cbn in OO; try contradiction.
    + exists (y :: q'). split; [reflexivity|constructor; assumption].
    + exists q'. split; [reflexivity|assumption].
Qed.

Lemma Rel_plain : forall u n alloc, Rel (new_plain u n) (make_plain u n alloc) plain_care.
Proof.
  intros u n alloc. constructor; cbn; auto; try discriminate.
  all: intros; first [apply agrees_refl|apply agrees_none].
Qed.

Lemma Rel_user : forall u n id, Rel (new_user compat u n id) (make_user compat u n id) user_care.
Proof.
  intros u n id. constructor; cbn; auto; try discriminate.
  - intros k j _. apply agrees_refl.
  - intros _ j _. unfold data, hostmem. cbn. destruct (compat id); [apply agrees_refl|apply agrees_none].
  - intros _. unfold hostmem. cbn. destruct (compat id); discriminate.
  - intros [X|[X _]]; discriminate X.
Qed.

Lemma host_only_careful : forall (l : list (op V)) c,
  on_host c = true -> Forall host_only l -> careful c l.
Proof.
  induction l as [|o r IH]; intros c O F; [exact Logic.I|].
  inversion F as [|? ? F1 F2]; subst. split.
  - destruct o; cbn in *; auto; contradiction.
  - apply IH; [|exact F2]. destruct o; cbn in *; auto; contradiction.
Qed.

Lemma plain_ok : forall (u : nat -> content) n alloc (l : list (op V)) outs,
  careful plain_care l -> Forall op_sensible l ->
  spec_run compat (new_plain u n) l = Some outs ->
  exists outs', run compat (make_plain u n alloc) l = Some outs' /\ Forall2 agrees outs outs'.
Proof.
  intros u n alloc l outs C F E. eapply run_ok; eauto. apply Rel_plain.
Qed.
Lemma user_ok : forall (u : nat -> content) n id (l : list (op V)) outs,
  careful user_care l -> Forall op_sensible l ->
  spec_run compat (new_user compat u n id) l = Some outs ->
  exists outs', run compat (make_user compat u n id) l = Some outs' /\ Forall2 agrees outs outs'.
Proof.
  intros u n id l outs C F E. eapply run_ok; eauto. apply Rel_user.
Qed.
End DeviceProofs.
