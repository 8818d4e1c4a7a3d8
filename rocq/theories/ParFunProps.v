(** C96: clip and invclip in distributed expressions. *)
From Coq Require Import List Arith ZArith Lia Bool.
From Verif Require Import Base Dist Domain Traversal Map ParAssign ParSeq ParSeqProofs Selgen ParFun ParFunProofs.
Import ListNotations.
Local Open Scope nat_scope.

(** C96.  As long as no clip or invclip occurs, a program of distributed
    statements computes what the statements compute one after the other,
    whatever the memory of the processors contains when the expressions are
    rebuilt; it ends whatever the order in which the processors run.
    Missing: programs with clip or invclip (see below). *)
Theorem C96_program_partial :
  forall (eager : nat -> nat -> nat -> bool) n D O buf (U : nat -> Prop) I J (ss : list fstmt)
    (M : nat -> nat -> Z -> Z) (X : nat -> list nat -> Z),
  (forall v, U v -> var_ok n (O v) (D v)) ->
  (forall v, In v I -> U v) ->
  admissible n D O U I ss ->
  Forall (fun s => no_settings (f_rhs s)) ss ->
  (forall v, In v I -> forall r, holds (v_map (D v)) (v_st (D v)) (fun r => M r v) (X v) r) ->
  exists P N,
  (forall r, r < n -> fspmd D O buf J ss r = Some (P r)) /\
  (forall r, n <= r -> P r = []) /\
  forall k s, gsteps eager k {| gprog := P; gmem := M; gchan := fun _ _ => [] |} s ->
    k <= N /\
    ((exists r t, pstep eager r s = Some t) \/
     ((forall r, gprog s r = []) /\ (forall p q, gchan s p q = []) /\
      (forall v, In v (map f_lhs ss) \/ In v I ->
         forall r, holds (v_map (D v)) (v_st (D v)) (fun r => gmem s r v) (outcome X ss v) r) /\
      (forall r v o, U v ->
         (In v (map f_lhs ss) -> forall g, ~ element_at (v_map (D v)) (v_st (D v)) r o g) ->
         gmem s r v o = M r v o))).
Proof. exact program_ok. Qed.
Print Assumptions C96_program_partial.

(** Defect: the settings given to clip and invclip never reach a distributed
    assignment.  Two programs that differ in nothing but these settings are
    turned into the same actions on every processor, whatever the maps. *)
Theorem C96_settings_lost_refuted :
  (forall D O buf J ss ss', Forall2 like_stmt ss ss' -> forall r, fspmd D O buf J ss r = fspmd D O buf J ss' r) /\
  exists ss ss' X v g, Forall2 like_stmt ss ss' /\ outcome X ss v g <> outcome X ss' v g.
Proof.
  split; [exact program_like|].
  exists [{| f_lhs := 1; f_rhs := FClip 1 5 1 5 (FVar 0); f_temps := [2] |}],
    [{| f_lhs := 1; f_rhs := FClip 2 4 2 4 (FVar 0); f_temps := [2] |}], (fun _ _ => 7%Z), 1, [0].
  split; [|cbn; lia]. repeat constructor.
Qed.
Print Assumptions C96_settings_lost_refuted.

(** Two processors with one element each; blocks 0 and 1 are mapped alike. *)
Definition ex_m := {| a_dims := [(Block 2, 2)]; a_pvec := [0; 1]; a_rep := false |}.
Definition ex_D (v : nat) : var := {| v_map := ex_m; v_st := fun _ => [1%Z]; v_bbb := false |}.
Definition ex_O (v : nat) : list nat := [0].
Definition ex_M (r v : nat) (o : Z) : Z := if v =? 0 then (7 + Z.of_nat r)%Z else 0%Z.
Definition ex_X (v : nat) (g : list nat) : Z := if v =? 0 then (7 + Z.of_nat (hd 0%nat g))%Z else 0%Z.

Lemma ex_var_ok : forall v, var_ok 2 (ex_O v) (ex_D v).
Proof.
  intros v. apply var_ok_1; [constructor; cbn; try discriminate; try reflexivity; repeat constructor; cbn; intuition discriminate|..];
    cbn; try lia; repeat constructor.
Qed.
Lemma ex_adm ss : (forall s, In s ss -> f_lhs s = 1 /\ exists t, f_temps s = [t] /\ 2 <= t /\ (forall v, shape (f_rhs s) <> PVar v) /\
    leaf_vars (shape (f_rhs s)) = [0] /\ has_gen (shape (f_rhs s)) = false) ->
  forall I, In 0 I -> admissible 2 ex_D ex_O (fun v => v < 2) I ss.
Proof.
  unfold admissible. induction ss as [|s ss IH]; intros H I HI; cbn; [constructor|].
  destruct (H s (or_introl eq_refl)) as (L & t & T & Ht & NV & LV & HG).
  constructor; [|apply IH; [intros s' S'; apply H; right; exact S'|right; exact HI]].
  constructor; cbn [s_lhs s_rhs s_temps].
  - lia.
  - rewrite LV. intros v [<-|[]]. exact HI.
  - intros; reflexivity.
  - intros _. rewrite T, LV. split; [reflexivity|]. repeat constructor; intros [].
  - intros _ x. rewrite T. intros [<-|[]]. split; [lia|]. split; [apply ex_var_ok|]. split; [reflexivity|intros _ r; reflexivity].
  - intros v E. contradict E. apply NV.
  - rewrite HG. discriminate.
Qed.
Lemma ex_holds r : holds (v_map (ex_D 0)) (v_st (ex_D 0)) (fun r => ex_M r 0) (ex_X 0) r.
Proof.
  intros sb ext l g E1 E2 E3 E4. cbn [v_map v_st ex_D] in *.
  assert (H : (r = 0 /\ sb = 0 /\ ext = [1]) \/ (r = 1 /\ sb = 1 /\ ext = [1])).
  { destruct r as [|[|r]]; cbn in E1; try discriminate; injection E1 as <-; cbn in E2; injection E2 as <-; auto. }
  destruct H as [(-> & -> & ->)|(-> & -> & ->)]; inversion E3 as [|i ? i' ? H1 H2]; subst; inversion H2; subst;
    destruct i as [|i]; try lia; vm_compute in E4; injection E4 as <-; reflexivity.
Qed.

(** The hypotheses of [C96_program_partial] are met by [1 = -(0 + 1);
    1 = 0 * 3]. *)
Example C96_program_example :
  (forall v, v < 2 -> var_ok 2 (ex_O v) (ex_D v)) /\
  let ss := [{| f_lhs := 1; f_rhs := FUn Z.opp (FBin Z.add (FVar 0) (FScal 1)); f_temps := [2] |};
             {| f_lhs := 1; f_rhs := FBin Z.mul (FVar 0) (FScal 3); f_temps := [3] |}] in
  admissible 2 ex_D ex_O (fun v => v < 2) [0] ss /\ Forall (fun s => no_settings (f_rhs s)) ss /\
  (forall v, In v [0] -> forall r, holds (v_map (ex_D v)) (v_st (ex_D v)) (fun r => ex_M r v) (ex_X v) r) /\
  map (fun i => outcome ex_X ss 1 [i]) [0; 1] = [21; 24]%Z.
Proof.
  split; [intros; apply ex_var_ok|]. cbv zeta. split; [|split; [repeat constructor|split; [intros v [<-|[]]; apply ex_holds|reflexivity]]].
  apply ex_adm; [|left; reflexivity]. intros s [<-|[<-|[]]]; (split; [reflexivity|]); eexists;
    (split; [reflexivity|]); (split; [lia|]); (split; [discriminate|]); split; reflexivity.
Qed.

(** Defect: a distributed [w = clip(v, lower, upper, lval, uval)] does not
    clip.  Get_local_block and the reorganization of the operands rebuild the
    unary node from its argument alone (unary.hpp 202, transform.hpp 248), so
    that the thresholds and values are uninitialised members: whatever these
    contain, there are settings, and two vectors of two elements on two
    processors, for which the program ends with a wrong vector. *)
Theorem C96_clip_refuted :
  forall (J : nat -> nat -> list nat -> nat -> Z),
  exists lower upper lval uval,
  let ss := [{| f_lhs := 1; f_rhs := FClip lower upper lval uval (FVar 0); f_temps := [2] |}] in
  (lower <= upper)%Z /\
  exists n D O (U : nat -> Prop) M X P k s,
  U 0 /\ U 1 /\ (forall v, U v -> var_ok n (O v) (D v)) /\
  admissible n D O U [0] ss /\
  (forall r, holds (v_map (D 0)) (v_st (D 0)) (fun r => M r 0) (X 0) r) /\
  (forall r, r < n -> fspmd D O 9 J ss r = Some (P r)) /\
  (forall r, n <= r -> P r = []) /\
  gsteps (fun _ _ _ => false) k {| gprog := P; gmem := M; gchan := fun _ _ => [] |} s /\
  (forall r, gprog s r = []) /\
  ~ holds (v_map (D 1)) (v_st (D 1)) (fun r => gmem s r 1) (outcome X ss 1) 0.
Proof.
  intros J.
  set (w := clip_functor (J 0 0 [] 0) (J 0 0 [] 1) (J 0 0 [] 2) (J 0 0 [] 3) 7).
  exists 9%Z, 10%Z, (w + 1)%Z, (w + 1)%Z. cbv zeta. split; [lia|].
  set (E := fun r => [GEval 1 [(0%Z, RUn (clip_functor (J r 0 [] 0) (J r 0 [] 1) (J r 0 [] 2) (J r 0 [] 3)) (RRead 0 0%Z))]] : list (gact Z)).
  set (P := fun r => match r with 0 | 1 => E r | _ => [] end).
  set (S0 := {| gprog := P; gmem := ex_M; gchan := fun _ _ => [] |}).
  assert (X1 : exists s1, pstep (fun _ _ _ => false) 0 S0 = Some s1 /\
    gprog s1 = upd P 0 [] /\ gmem s1 0 1 0%Z = w /\ gchan s1 = fun _ _ => []).
  { eexists. split; [reflexivity|]. split; [reflexivity|]. split; reflexivity. }
  destruct X1 as (s1 & A1 & A2 & A3 & A4).
  assert (X2 : exists s2, pstep (fun _ _ _ => false) 1 s1 = Some s2 /\ gprog s2 = upd (gprog s1) 1 [] /\ gmem s2 0 1 0%Z = w).
  { unfold pstep. rewrite A2. cbn [upd Nat.eqb P E]. eexists. split; [reflexivity|]. split; [reflexivity|]. cbn [gmem].
    unfold upd at 1. cbn. exact A3. }
  destruct X2 as (s2 & B1 & B2 & B3).
  exists 2, ex_D, ex_O, (fun v => v < 2), ex_M, ex_X, P, 2, s2.
  split; [lia|]. split; [lia|]. split; [intros; apply ex_var_ok|].
  split. { apply ex_adm; [|left; reflexivity]. intros s [<-|[]]. split; [reflexivity|]. eexists. split; [reflexivity|]. split; [lia|]. split; [discriminate|]. split; reflexivity. }
  split; [intros r; apply ex_holds|].
  split. { intros r Hr. destruct r as [|[|r]]; [reflexivity|reflexivity|lia]. }
  split. { intros r Hr. destruct r as [|[|r]]; [lia|lia|reflexivity]. }
  split. { eapply gs_S; [exact A1|]. eapply gs_S; [exact B1|]. apply gs_0. }
  split. { intros r. rewrite B2, A2. destruct r as [|[|r]]; reflexivity. }
  intros H. specialize (H 0 [1] [0] [0] eq_refl eq_refl). cbn [v_map v_st ex_D] in H.
  assert (Q := H ltac:(constructor; [lia|constructor]) eq_refl).
  change (off [1%Z] [0]) with 0%Z in Q. rewrite B3 in Q. cbn in Q. lia.
Qed.
Print Assumptions C96_clip_refuted.
