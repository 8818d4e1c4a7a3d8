(** Lemmas about Handles.v. *)
From Coq Require Import List Arith Bool Lia.
From Verif Require Import Handles.
Import ListNotations.

Definition part (v : option (kind * option nat)) (h : nat) : nat :=
  match v with Some (_, Some g) => if g =? h then 1 else 0 | _ => 0 end.

Lemma holders_ext s s' h n : (forall x, vars s' x = vars s x) -> holders s' h n = holders s h n.
Proof. intros E. induction n as [|n IH]; [reflexivity|]. cbn [holders]. rewrite IH, E. reflexivity. Qed.

Lemma holders_out s s' h x v n : (forall y, vars s' y = upd (vars s) x v y) -> n <= x -> holders s' h n = holders s h n.
Proof.
  intros E. induction n as [|n IH]; intros L; [reflexivity|]. cbn [holders]. rewrite IH by lia. rewrite E. unfold upd.
  destruct (Nat.eqb_spec n x); [lia|reflexivity].
Qed.

Lemma holders_in s s' h x v n : (forall y, vars s' y = upd (vars s) x v y) -> x < n ->
  holders s' h n + part (vars s x) h = holders s h n + part v h.
Proof.
  intros E. induction n as [|n IH]; intros L; [lia|]. cbn [holders]. rewrite E. unfold upd at 1.
  destruct (Nat.eqb_spec n x) as [->|N].
  - rewrite (holders_out s s' h x v x E) by lia. fold (part v h). fold (part (vars s x) h). lia.
  - pose proof (IH ltac:(lia)). lia.
Qed.

Lemma holder_pos s h n x k : vars s x = Some (k, Some h) -> x < n -> 1 <= holders s h n.
Proof.
  intros E. induction n as [|n IH]; intros L; [lia|]. cbn [holders]. destruct (Nat.eq_dec n x) as [->|N].
  - rewrite E, Nat.eqb_refl. lia.
  - pose proof (IH ltac:(lia)). lia.
Qed.

Lemma holders_two s h n x y k k' : vars s x = Some (k, Some h) -> vars s y = Some (k', Some h) -> x < n -> y < n -> x <> y -> 2 <= holders s h n.
Proof.
  intros E E'. induction n as [|n IH]; intros L L' N; [lia|]. cbn [holders].
  destruct (Nat.eq_dec n x) as [->|Nx].
  - rewrite E, Nat.eqb_refl. pose proof (holder_pos s h x y k' E' ltac:(lia)). lia.
  - destruct (Nat.eq_dec n y) as [->|Ny].
    + rewrite E', Nat.eqb_refl. pose proof (holder_pos s h y x k E ltac:(lia)). lia.
    + pose proof (IH ltac:(lia) ltac:(lia) N). lia.
Qed.

Section P.
Variables (root : nat -> bool) (cl12 : bool) (N : nat).

Record Inv (s : state) : Prop := {
  i_cnt : forall h, root h = false -> cnt s h = own s h + holders s h N;
  i_new : forall h, root h = false -> next s <= h -> cnt s h = 0;
  i_var : forall x k g, vars s x = Some (k, Some g) -> x < N /\ (root g = true <-> k = Dev) }.

Definition faulty (o : op) (s : state) : Prop :=
  (exists x k, o = Destroy x /\ vars s x = Some (k, None) /\ (k = Prog \/ k = Kern \/ k = Dev /\ cl12 = true)) \/
  (exists x y i, o = Assign x y /\ vars s x = Some (Buf, i)).

Definition good (o : op) (s : state) (r : result) : Prop :=
  match r with Ok s' => Inv s' | Bad => True | Fault => faulty o s end.

Lemma set_null s x k v : Inv s -> x < N -> part (vars s x) = part v -> (forall g, v <> Some (k, Some g)) -> v = Some (k, None) \/ v = None ->
  Inv (set_var x v s).
Proof.
  intros I L P Nn Hv. constructor; cbn [set_var cnt own next vars].
  - intros h R. rewrite (i_cnt s I h R). pose proof (holders_in s (set_var x v s) h x v N (fun _ => eq_refl) L) as H.
    rewrite P in H. lia.
  - apply (i_new s I).
  - intros y k' g. unfold upd. destruct (y =? x); [|apply (i_var s I)]. destruct Hv; subst v; discriminate.
Qed.

Lemma kind_eqb_ok a b : kind_eqb a b = true <-> a = b.
Proof. destruct a, b; cbn; split; congruence. Qed.

(** Adding a holder together with a count. *)
Lemma add_holder s x k g c' : Inv s -> x < N -> vars s x = None \/ (exists k', vars s x = Some (k', None)) -> (root g = true <-> k = Dev) ->
  (forall h, root h = false -> c' h = cnt s h + (if g =? h then 1 else 0)) -> (root g = false -> 0 < cnt s g) ->
  Inv {| cnt := c'; vars := upd (vars s) x (Some (k, Some g)); own := own s; next := next s |}.
Proof.
  intros I L E K C P. constructor; cbn [cnt own next vars].
  - intros h R. rewrite C by exact R. rewrite (i_cnt s I h R).
    pose proof (holders_in s {| cnt := c'; vars := upd (vars s) x (Some (k, Some g)); own := own s; next := next s |} h x _ N (fun _ => eq_refl) L) as H.
    cbn [part] in H. assert (part (vars s x) h = 0) as Z by (destruct E as [->|(k' & ->)]; reflexivity). lia.
  - intros h R Hn. rewrite C by exact R. pose proof (i_new s I h R Hn). destruct (Nat.eqb_spec g h) as [->|]; [|lia]. specialize (P R). lia.
  - intros y k' g'. unfold upd. destruct (Nat.eqb_spec y x) as [->|]; [|apply (i_var s I)]. intros Q. injection Q as <- <-. split; assumption.
Qed.

(** Removing a holder together with a count. *)
Lemma drop_holder s x k g c' v : Inv s -> vars s x = Some (k, Some g) -> v = None \/ (exists k', v = Some (k', None)) ->
  (forall h, root h = false -> c' h + (if g =? h then 1 else 0) = cnt s h) ->
  Inv {| cnt := c'; vars := upd (vars s) x v; own := own s; next := next s |}.
Proof.
  intros I E V C. destruct (i_var s I x k g E) as [L K]. constructor; cbn [cnt own next vars].
  - intros h R. pose proof (C h R) as C1. pose proof (i_cnt s I h R) as C2.
    pose proof (holders_in s {| cnt := c'; vars := upd (vars s) x v; own := own s; next := next s |} h x v N (fun _ => eq_refl) L) as H.
    rewrite E in H. cbn [part] in H. assert (part v h = 0) as Z by (destruct V as [->|(k' & ->)]; reflexivity). lia.
  - intros h R Hn. pose proof (C h R). pose proof (i_new s I h R Hn). lia.
  - intros y k' g'. unfold upd. destruct (Nat.eqb_spec y x) as [->|]; [|apply (i_var s I)]. destruct V as [->|(k2 & ->)]; discriminate.
Qed.

Lemma retain_cases h s : (root h = false -> 0 < cnt s h) -> exists c', retain root h s = Ok {| cnt := c'; vars := vars s; own := own s; next := next s |} /\
  forall g, root g = false -> c' g = cnt s g + (if h =? g then 1 else 0).
Proof.
  intros P. unfold retain. destruct (root h) eqn:R.
  - exists (cnt s). split; [destruct s; reflexivity|]. intros g Rg. destruct (Nat.eqb_spec h g) as [->|]; [congruence|lia].
  - specialize (P eq_refl). destruct (Nat.eqb_spec (cnt s h) 0); [lia|]. eexists. split; [reflexivity|].
    intros g _. unfold upd. rewrite (Nat.eqb_sym g h). destruct (Nat.eqb_spec h g) as [->|]; lia.
Qed.

Lemma release_cases h s : (root h = false -> 0 < cnt s h) -> exists c', release root h s = Ok {| cnt := c'; vars := vars s; own := own s; next := next s |} /\
  forall g, root g = false -> c' g + (if h =? g then 1 else 0) = cnt s g.
Proof.
  intros P. unfold release. destruct (root h) eqn:R.
  - exists (cnt s). split; [destruct s; reflexivity|]. intros g Rg. destruct (Nat.eqb_spec h g) as [->|]; [congruence|lia].
  - specialize (P eq_refl). destruct (Nat.eqb_spec (cnt s h) 0); [lia|]. eexists. split; [reflexivity|].
    intros g _. unfold upd. rewrite (Nat.eqb_sym g h). destruct (Nat.eqb_spec h g) as [->|]; lia.
Qed.

Lemma live_held s x k g : Inv s -> vars s x = Some (k, Some g) -> root g = false -> 0 < cnt s g.
Proof.
  intros I E R. destruct (i_var s I x k g E) as [L _]. rewrite (i_cnt s I g R). pose proof (holder_pos s g N x k E L). lia.
Qed.

Lemma inv_ext s s' : Inv s -> (forall h, cnt s' h = cnt s h) -> (forall x, vars s' x = vars s x) -> (forall h, own s' h = own s h) -> next s' = next s -> Inv s'.
Proof.
  intros I C V O X. constructor.
  - intros h R. rewrite C, O, (holders_ext s s') by exact V. apply (i_cnt s I h R).
  - intros h R. rewrite C, X. apply (i_new s I h R).
  - intros x k g. rewrite V. apply (i_var s I).
Qed.

Lemma step_good o s : names_below N o -> root_devices root o -> Inv s -> good o s (step root cl12 o s).
Proof.
  intros NB RD I. destruct o as [x k|x k ok|x k h ret|x y|x y|x|x| |h|h]; cbn [step].
  - (* Default *) destruct (vars s x) eqn:E; [exact Logic.I|]. cbn [good]. apply (set_null s x k); auto; [rewrite E; reflexivity|discriminate].
  - (* Create *) destruct (vars s x) eqn:E; [exact Logic.I|].
    assert (Q : k <> Dev -> good (Create x k ok) s (if ok then if root (next s) then Bad else
          Ok {| cnt := upd (cnt s) (next s) 1; vars := upd (vars s) x (Some (k, Some (next s))); own := own s; next := S (next s) |} else Ok s)).
    { intros K. destruct ok; [|exact I]. destruct (root (next s)) eqn:R; [exact Logic.I|]. cbn [good].
      pose proof (i_new s I (next s) R (le_n _)) as Z. pose proof (i_cnt s I (next s) R) as ZC.
      constructor; cbn [cnt own next vars].
      - intros h Rh. pose proof (holders_in s {| cnt := upd (cnt s) (next s) 1; vars := upd (vars s) x (Some (k, Some (next s))); own := own s; next := S (next s) |}
          h x _ N (fun _ => eq_refl) NB) as H. rewrite E in H. cbn [part] in H. unfold upd at 1. destruct (Nat.eqb_spec h (next s)) as [->|Nh].
        + rewrite Nat.eqb_refl in H. lia.
        + rewrite (i_cnt s I h Rh). destruct (Nat.eqb_spec (next s) h); [congruence|]. lia.
      - intros h Rh Hn. unfold upd. destruct (Nat.eqb_spec h (next s)); [lia|]. apply (i_new s I h Rh). lia.
      - intros y k' g. unfold upd. destruct (Nat.eqb_spec y x) as [->|]; [|apply (i_var s I)]. intros A. injection A as <- <-.
        split; [exact NB|]. rewrite R. split; [discriminate|contradiction]. }
    destruct k; try exact Logic.I; apply Q; discriminate.
  - (* Wrap *) destruct (vars s x) eqn:E; [exact Logic.I|]. destruct (mine root cl12 (Some k) h s) eqn:M; [|exact Logic.I].
    cbn [names_below] in NB. unfold mine in M. destruct (root h) eqn:R.
    + (* root device *) assert (k = Dev) as -> by (destruct k; congruence).
      assert (W : wrap root cl12 Dev h ret s = Ok s) by (cbn [wrap]; destruct (cl12 && ret); [unfold retain; rewrite R|]; reflexivity).
      rewrite W. cbn [andThen good]. rewrite orb_true_r.
      pose proof (add_holder s x Dev h (cnt s) I NB (or_introl E)) as A. apply A.
      * rewrite R. split; reflexivity.
      * intros g Rg. destruct (Nat.eqb_spec h g) as [->|]; [congruence|lia].
      * congruence.
    + apply andb_prop in M as [M _]. apply negb_true_iff, Nat.eqb_neq in M.
      assert (K : k <> Dev) by (intros ->; cbn in RD; congruence).
      assert (P : 0 < cnt s h) by (rewrite (i_cnt s I h R); lia).
      assert (KR : root h = true <-> k = Dev) by (rewrite R; split; [discriminate|contradiction]).
      destruct ret.
      * assert (W : wrap root cl12 k h true s = retain root h s) by (destruct k; congruence || reflexivity). rewrite W.
        destruct (retain_cases h s (fun _ => P)) as (c' & Ec & Hc). rewrite Ec. cbn [andThen orb good set_var cnt own next vars].
        apply (add_holder s x k h c' I NB (or_introl E) KR Hc (fun _ => P)).
      * assert (W : wrap root cl12 k h false s = Ok s) by (destruct k; cbn [wrap]; rewrite ?andb_false_r; reflexivity). rewrite W.
        cbn [andThen orb good set_var set_own cnt own next vars].
        constructor; cbn [set_own set_var cnt own next vars].
        -- intros g Rg. pose proof (holders_in s (set_own h (own s h - 1) (set_var x (Some (k, Some h)) s)) g x _ N (fun _ => eq_refl) NB) as H.
           rewrite E in H. cbn [part] in H. unfold upd. pose proof (i_cnt s I g Rg) as C. rewrite (Nat.eqb_sym g h).
           destruct (Nat.eqb_spec h g) as [->|]; lia.
        -- apply (i_new s I).
        -- intros y k' g. unfold upd. destruct (Nat.eqb_spec y x) as [->|]; [|apply (i_var s I)]. intros A. injection A as <- <-. split; assumption.
  - (* Copy *) destruct NB as [Lx Ly]. destruct (vars s x) eqn:E; [exact Logic.I|]. destruct (vars s y) as [[k [g|]]|] eqn:Ey; [| |exact Logic.I].
    + destruct (i_var s I y k g Ey) as [_ KR]. pose proof (live_held s y k g I Ey) as P.
      assert (exists c', copy root k (Some g) s = Ok {| cnt := c'; vars := vars s; own := own s; next := next s |} /\
        forall h, root h = false -> c' h = cnt s h + (if g =? h then 1 else 0)) as (c' & Ec & Hc).
      { destruct (kind_eqb k Dev) eqn:KD.
        - apply kind_eqb_ok in KD as ->. exists (cnt s). split; [destruct s; reflexivity|]. intros h Rh.
          destruct (Nat.eqb_spec g h) as [->|]; [|lia]. rewrite (proj2 KR eq_refl) in Rh. discriminate.
        - destruct (retain_cases g s P) as (c' & Ec & Hc). exists c'. split; [|exact Hc]. rewrite <- Ec. destruct k; try reflexivity. discriminate. }
      rewrite Ec. cbn [andThen good set_var cnt own next vars]. exact (add_holder s x k g c' I Lx (or_introl E) KR Hc P).
    + assert (copy root k None s = Ok s) as -> by (destruct k; reflexivity). cbn [andThen good].
      apply (set_null s x k); auto; [rewrite E; reflexivity|discriminate].
  - (* Assign *) destruct NB as [Lx Ly]. destruct (vars s x) as [[k i]|] eqn:Ex; [|exact Logic.I]. destruct (vars s y) as [[k' j]|] eqn:Ey; [|exact Logic.I].
    destruct (kind_eqb k k') eqn:KK; cbn [negb]; [|exact Logic.I]. apply kind_eqb_ok in KK as <-.
    destruct (Nat.eqb_spec x y) as [<-|Nxy].
    { destruct k; try exact I. cbn [good]. right. exists x, x, i. split; [reflexivity|exact Ex]. }
    assert (G : forall r, r = andThen (release_opt root i s) (fun s => retain_opt root j (set_var x (Some (k, j)) s)) -> good (Assign x y) s r).
    { intros r ->.
      assert (exists c', release_opt root i s = Ok {| cnt := c'; vars := vars s; own := own s; next := next s |} /\
        Inv {| cnt := c'; vars := upd (vars s) x (Some (k, None)); own := own s; next := next s |} /\
        (forall h, root h = false -> c' h + part (Some (k, i)) h = cnt s h)) as (c1 & Er & I1 & C1).
      { destruct i as [g|].
        - destruct (release_cases g s (live_held s x k g I Ex)) as (c' & Er & Hr). exists c'. split; [exact Er|]. split; [|exact Hr].
          apply (drop_holder s x k g c' (Some (k, None)) I Ex); [right; eexists; reflexivity|exact Hr].
        - exists (cnt s). split; [destruct s; reflexivity|]. split; [|intros; cbn; lia].
          apply (inv_ext s); try reflexivity; [exact I|]. intros z. cbn. unfold upd. destruct (Nat.eqb_spec z x) as [->|]; [symmetry; exact Ex|reflexivity]. }
      rewrite Er. cbn [andThen]. set (s1 := {| cnt := c1; vars := upd (vars s) x (Some (k, None)); own := own s; next := next s |}) in *.
      assert (Ey1 : vars s1 y = Some (k, j)) by (cbn; unfold upd; destruct (Nat.eqb_spec y x); [congruence|exact Ey]).
      assert (Ex1 : vars s1 x = Some (k, None)) by (cbn; unfold upd; rewrite Nat.eqb_refl; reflexivity).
      destruct j as [g|]; cbn [retain_opt].
      - destruct (i_var s1 I1 y k g Ey1) as [_ KR].
        destruct (retain_cases g (set_var x (Some (k, Some g)) {| cnt := c1; vars := vars s; own := own s; next := next s |})) as (c2 & E2 & H2).
        { intros R. exact (live_held s1 y k g I1 Ey1 R). }
        rewrite E2. cbn [good set_var cnt own next vars].
        pose proof (add_holder s1 x k g c2 I1 Lx (or_intror (ex_intro _ k Ex1)) KR H2 (live_held s1 y k g I1 Ey1)) as I2.
        apply (inv_ext _ _ I2); try reflexivity. intros z. cbn. unfold upd. destruct (z =? x); reflexivity.
      - cbn [good]. apply (inv_ext s1); try reflexivity. exact I1. }
    destruct k; cbn [assign]; try (apply G; reflexivity).
    + cbn [good]. right. exists x, y, i. split; [reflexivity|exact Ex].
    + destruct cl12; [apply G; reflexivity|]. cbn [good].
      assert (HR : forall z o, vars s z = Some (Dev, o) -> forall h, root h = false -> part (Some (Dev, o)) h = 0).
      { intros z o Ez h Rh. destruct o as [g|]; [|reflexivity]. cbn. destruct (Nat.eqb_spec g h) as [->|]; [|reflexivity].
        destruct (i_var s I z Dev h Ez) as [_ [_ K]]. rewrite (K eq_refl) in Rh. discriminate. }
      constructor; cbn [set_var cnt own next vars].
      * intros h Rh. pose proof (holders_in s (set_var x (Some (Dev, j)) s) h x _ N (fun _ => eq_refl) Lx) as H. rewrite Ex in H.
        rewrite (HR x i Ex h Rh), (HR y j Ey h Rh) in H. rewrite (i_cnt s I h Rh). lia.
      * apply (i_new s I).
      * intros z k' g. unfold upd. destruct (Nat.eqb_spec z x) as [->|]; [|apply (i_var s I)]. intros A. injection A as <- ->.
        split; [exact Lx|]. apply (i_var s I y Dev g Ey).
  - (* Destroy *) destruct (vars s x) as [[k i]|] eqn:Ex; [|exact Logic.I]. destruct i as [g|].
    + pose proof (i_var s I x k g Ex) as [_ KR]. pose proof (live_held s x k g I Ex) as P.
      assert (exists c', destroy root cl12 k (Some g) s = Ok {| cnt := c'; vars := vars s; own := own s; next := next s |} /\
        forall h, root h = false -> c' h + (if g =? h then 1 else 0) = cnt s h) as (c' & Ec & Hc).
      { destruct (kind_eqb k Dev && negb cl12) eqn:KD.
        - apply andb_prop in KD as [KD CL]. apply kind_eqb_ok in KD as ->. apply negb_true_iff in CL. cbn [destroy]. rewrite CL.
          exists (cnt s). split; [destruct s; reflexivity|]. intros h Rh.
          destruct (Nat.eqb_spec g h) as [->|]; [|lia]. rewrite (proj2 KR eq_refl) in Rh. discriminate.
        - destruct (release_cases g s P) as (c' & Ec & Hc). exists c'. split; [|exact Hc]. rewrite <- Ec. destruct k; try reflexivity.
          cbn in KD. apply negb_false_iff in KD. cbn [destroy]. rewrite KD. reflexivity. }
      rewrite Ec. cbn [andThen good set_var cnt own next vars]. exact (drop_holder s x k g c' None I Ex (or_introl eq_refl) Hc).
    + assert (D : destroy root cl12 k None s = Ok s \/ destroy root cl12 k None s = Fault /\ (k = Prog \/ k = Kern \/ k = Dev /\ cl12 = true)).
      { destruct k; cbn; try (left; reflexivity); try (destruct cl12; [right|left; reflexivity]); try right; split; try reflexivity; intuition reflexivity. }
      destruct D as [->|[-> K]]; cbn [andThen good].
      * apply (set_null s x k); auto; [rewrite Ex; reflexivity|discriminate].
      * left. exists x, k. auto.
  - (* Use *) destruct (vars s x) as [[k [g|]]|] eqn:Ex; [|exact I|exact Logic.I]. destruct (root g) eqn:R; [exact I|].
    destruct (Nat.eqb_spec (cnt s g) 0) as [Z|]; [|exact I]. pose proof (live_held s x k g I Ex R). lia.
  - (* Raw *) destruct (root (next s)) eqn:R; [exact Logic.I|]. cbn [good].
    pose proof (i_new s I (next s) R (le_n _)) as Z. pose proof (i_cnt s I (next s) R) as ZC. constructor; cbn [cnt own next vars].
    + intros h Rh. rewrite (holders_ext s) by reflexivity. unfold upd. destruct (Nat.eqb_spec h (next s)) as [->|]; [lia|apply (i_cnt s I h Rh)].
    + intros h Rh Hn. unfold upd. destruct (Nat.eqb_spec h (next s)); [lia|]. apply (i_new s I h Rh). lia.
    + apply (i_var s I).
  - (* RawRetain *) destruct (mine root cl12 None h s) eqn:M; [|exact Logic.I]. unfold mine in M. destruct (root h) eqn:R; [discriminate|].
    apply andb_prop in M as [M _]. apply negb_true_iff, Nat.eqb_neq in M.
    destruct (retain_cases h s) as (c' & Ec & Hc); [intros _; rewrite (i_cnt s I h R); lia|]. rewrite Ec. cbn [andThen good].
    constructor; cbn [set_own cnt own next vars].
    + intros g Rg. rewrite (holders_ext s) by reflexivity. rewrite Hc, (i_cnt s I g Rg) by exact Rg. unfold upd. rewrite (Nat.eqb_sym g h).
      destruct (Nat.eqb_spec h g) as [->|]; lia.
    + intros g Rg Hn. rewrite Hc by exact Rg. pose proof (i_new s I g Rg Hn). pose proof (i_cnt s I g Rg).
      destruct (Nat.eqb_spec h g) as [->|]; lia.
    + apply (i_var s I).
  - (* RawRelease *) destruct (mine root cl12 None h s) eqn:M; [|exact Logic.I]. unfold mine in M. destruct (root h) eqn:R; [discriminate|].
    apply andb_prop in M as [M _]. apply negb_true_iff, Nat.eqb_neq in M.
    destruct (release_cases h s) as (c' & Ec & Hc); [intros _; rewrite (i_cnt s I h R); lia|]. rewrite Ec. cbn [andThen good].
    constructor; cbn [set_own cnt own next vars].
    + intros g Rg. rewrite (holders_ext s) by reflexivity. pose proof (Hc g Rg). pose proof (i_cnt s I g Rg). unfold upd. rewrite (Nat.eqb_sym g h).
      destruct (Nat.eqb_spec h g) as [->|]; lia.
    + intros g Rg Hn. pose proof (Hc g Rg). pose proof (i_new s I g Rg Hn). lia.
    + apply (i_var s I).
Qed.

Lemma start_inv n : Inv (start n).
Proof.
  constructor; cbn; try reflexivity; try discriminate. intros h _. induction N as [|m IH]; [reflexivity|]. cbn [holders]. cbn in *. lia.
Qed.

Lemma run_good l : forall s, Forall (names_below N) l -> Forall (root_devices root) l -> Inv s ->
  match run root cl12 l s with
  | Ok s' => Inv s'
  | Bad => True
  | Fault => exists l1 o l2 s1, l = l1 ++ o :: l2 /\ run root cl12 l1 s = Ok s1 /\ faulty o s1
  end.
Proof.
  induction l as [|o l IH]; intros s F R I; [exact I|]. inversion F as [|? ? Fo F']; inversion R as [|? ? Ro R']; subst.
  cbn [run]. pose proof (step_good o s Fo Ro I) as G. destruct (step root cl12 o s) as [s1| |] eqn:E; cbn [andThen good] in *; [|exact Logic.I|].
  - specialize (IH s1 F' R' G). destruct (run root cl12 l s1); auto. destruct IH as (l1 & o' & l2 & s2 & -> & E2 & Fa).
    exists (o :: l1), o', l2, s2. split; [reflexivity|]. split; [|exact Fa]. cbn [run]. rewrite E. exact E2.
  - exists [], o, l, s. split; [reflexivity|]. split; [reflexivity|exact G].
Qed.

Lemma no_holders s h : (forall x, vars s x = None) -> forall n, holders s h n = 0.
Proof. intros E n. induction n as [|n IH]; [reflexivity|]. cbn [holders]. rewrite IH, E. reflexivity. Qed.
End P.

(** ** Defaults *)
Section D.
Variables (ps : list platform) (idx : nat) (pl : platform).
Hypothesis HP : nth_error ps idx = Some pl.
Definition pick : option nat :=
  match map fst (filter is_accelerator (p_devices pl)) with d :: _ => Some d | [] => match map fst (p_devices pl) with d :: _ => Some d | [] => None end end.
Definition ctx_of : option (list nat) := option_map (fun d => [d]) (p_default pl).
Definition consistent (s : defaults) : Prop :=
  (s_dev s = None \/ s_dev s = pick) /\ (s_ctx s = None \/ s_ctx s = ctx_of) /\
  (s_que s = None \/ exists c d, s_que s = Some (c, d) /\ ctx_of = Some c /\ pick = Some d /\ In d c).

Lemma dev_ok s : consistent s -> consistent (fst (default_device ps idx s)) /\ snd (default_device ps idx s) = pick.
Proof.
  intros (D & C & Q). unfold default_device. destruct (s_dev s) as [d|] eqn:E.
  - cbn. destruct D as [D|D]; [discriminate|]. split; [|exact D]. unfold consistent. rewrite E. auto.
  - unfold default_platform. rewrite HP. unfold pick. destruct (map fst (filter _ _)) as [|a r] eqn:F; [destruct (map fst (p_devices pl)) as [|b r2] eqn:F2|].
    + split; [|reflexivity]. unfold consistent. cbn [fst]. rewrite E. auto.
    + split; [|reflexivity]. unfold consistent. cbn [fst s_dev s_ctx s_que]. split; [right; unfold pick; rewrite F, F2; reflexivity|]. auto.
    + split; [|reflexivity]. unfold consistent. cbn [fst s_dev s_ctx s_que]. split; [right; unfold pick; rewrite F; reflexivity|]. auto.
Qed.

Lemma ctx_ok s : consistent s -> consistent (fst (default_context ps idx s)) /\ snd (default_context ps idx s) = ctx_of.
Proof.
  intros (D & C & Q). unfold default_context. destruct (s_ctx s) as [c|] eqn:E.
  - cbn. destruct C as [C|C]; [discriminate|]. split; [|exact C]. unfold consistent. rewrite E. auto.
  - unfold default_platform. rewrite HP. unfold ctx_of. destruct (p_default pl) as [d|] eqn:F.
    + split; [|reflexivity]. unfold consistent. cbn [fst s_dev s_ctx s_que]. unfold ctx_of at 1. rewrite F. split; [exact D|]. split; [right; reflexivity|]. exact Q.
    + split; [|reflexivity]. unfold consistent. cbn [fst]. rewrite E. auto.
Qed.

Lemma que_ok s : consistent s -> consistent (fst (default_queue ps idx s)) /\
  snd (default_queue ps idx s) = match ctx_of, pick with Some c, Some d => if existsb (Nat.eqb d) c then Some (c, d) else None | _, _ => None end.
Proof.
  intros K. pose proof K as (D & C & Q). unfold default_queue. destruct (s_que s) as [q|] eqn:E.
  - cbn. split; [exact K|]. destruct Q as [Q|(c & d & Q & E1 & E2 & Hin)]; [discriminate|]. rewrite E1, E2, Q.
    assert (existsb (Nat.eqb d) c = true) as -> by (apply existsb_exists; exists d; split; [exact Hin|apply Nat.eqb_refl]). reflexivity.
  - pose proof (ctx_ok s K) as [K1 R1]. destruct (default_context ps idx s) as [s1 r1]. cbn [fst snd] in K1, R1. subst r1.
    destruct ctx_of as [c|] eqn:EC; [|cbn; auto].
    pose proof (dev_ok s1 K1) as [K2 R2]. destruct (default_device ps idx s1) as [s2 r2]. cbn [fst snd] in K2, R2. subst r2.
    destruct pick as [d|] eqn:EP; [|cbn; auto].
    destruct (existsb (Nat.eqb d) c) eqn:EX; cbn [fst snd]; [|auto]. split; [|reflexivity].
    destruct K2 as (D2 & C2 & _). unfold consistent. cbn [s_dev s_ctx s_que]. split; [exact D2|]. split; [exact C2|].
    right. exists c, d. split; [reflexivity|]. split; [exact EC|]. split; [exact EP|]. apply existsb_exists in EX as (z & Hz & Ez). apply Nat.eqb_eq in Ez as ->. exact Hz.
Qed.

Lemma calls_ok l : forall s, consistent s -> consistent (fold_left (do_call ps idx) l s).
Proof.
  induction l as [|c l IH]; intros s K; [exact K|]. cbn [fold_left]. apply IH. destruct c; cbn [do_call]; [apply dev_ok|apply ctx_ok|apply que_ok]; exact K.
Qed.
Lemma none_ok : consistent none_yet. Proof. unfold consistent. cbn. auto. Qed.
End D.
