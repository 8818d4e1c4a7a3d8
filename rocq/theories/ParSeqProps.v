(** C62: programs of statements on distributed blocks. *)
From Coq Require Import List Arith ZArith Lia Bool.
From Verif Require Import Base Dist Domain Traversal Map ParAssign ParSeq ParSeqProofs.
Import ListNotations.
Local Open Scope nat_scope.

(** C62.  Every processor runs the same sequence of assignments, among blocks
    of the same size but distributed in different ways, each assigning an
    elementwise expression in distributed blocks, scalars and generators.
    Whatever the order in which the processors run, however far one gets
    ahead of another, whenever messages are delivered and whichever sends
    complete early: no processor fails, the program stops after a bounded
    number of steps, and where nobody can move everybody has finished, no
    message is left over and every block holds, on every processor, what
    the sequential program computes.  Cells of the program's blocks that
    are not elements of an assigned block have not changed. *)
Theorem C62_program_partial :
  forall V (eager : nat -> nat -> nat -> bool) n D O buf (U : nat -> Prop) I (ss : list (stmt V))
    (M : nat -> nat -> Z -> V) (X : nat -> list nat -> V),
  (forall v, U v -> var_ok n (O v) (D v)) ->
  (forall v, In v I -> U v) ->
  prog_ok n D O U I ss ->
  (forall v, In v I -> forall r, holds (v_map (D v)) (v_st (D v)) (fun r => M r v) (X v) r) ->
  exists P N,
  (forall r, r < n -> spmd D O buf ss r = Some (P r)) /\
  (forall r, n <= r -> P r = []) /\
  forall k s, gsteps eager k {| gprog := P; gmem := M; gchan := fun _ _ => [] |} s ->
    k <= N /\
    ((exists r t, pstep eager r s = Some t) \/
     ((forall r, gprog s r = []) /\ (forall p q, gchan s p q = []) /\
      (forall v, In v (map s_lhs ss) \/ In v I ->
         forall r, holds (v_map (D v)) (v_st (D v)) (fun r => gmem s r v) (run X ss v) r) /\
      (forall r v o, U v ->
         (In v (map s_lhs ss) -> forall g, ~ element_at (v_map (D v)) (v_st (D v)) r o g) ->
         gmem s r v o = M r v o))).
Proof.
  intros V eager n D O buf U I ss M X UV IU PO HI.
  exact (prog_ends eager n D O buf U UV ss I M X PO IU HI).
Qed.
Print Assumptions C62_program_partial.

(** Seven elements on three processors: 0 in two blocks, 1 cyclic with
    stride 3, 2 replicated, 3 in three blocks; temporaries from 10 on. *)
Definition ex_var (a : amap) (z : Z) : var := {| v_map := a; v_st := fun _ => [z]; v_bbb := false |}.
Definition ex_m0 := {| a_dims := [(Block 2, 7)]; a_pvec := [2; 0]; a_rep := false |}.
Definition ex_m1 := {| a_dims := [(Cyclic 3 2, 7)]; a_pvec := [0; 1; 2]; a_rep := false |}.
Definition ex_m2 := {| a_dims := [(Whole, 7)]; a_pvec := [1; 0; 2]; a_rep := true |}.
Definition ex_m3 := {| a_dims := [(Block 3, 7)]; a_pvec := [1; 2; 0]; a_rep := false |}.
Definition ex_D (v : nat) : var :=
  match v with
  | 0 => ex_var ex_m0 1 | 1 => ex_var ex_m1 3 | 2 => ex_var ex_m2 2 | 3 => ex_var ex_m3 1
  | 10 | 11 => ex_var ex_m2 1 | 20 => ex_var ex_m1 1 | 21 => ex_var ex_m3 1
  | _ => ex_var ex_m0 1
  end.
Definition ex_O (v : nat) : list nat := [0].
(** 1 = 0;  2 = 1 * 0 + ramp;  0 = - 0;  3 = 0;  0 = 2 + 1 *)
Definition ex_prog : list (stmt Z) :=
  [ {| s_lhs := 1; s_rhs := PVar 0; s_temps := [20] |};
    {| s_lhs := 2; s_temps := [10; 11];
       s_rhs := PBin Z.add (PBin Z.mul (PVar 1) (PVar 0)) (PGen (fun g => Z.of_nat (hd 0 g))) |};
    {| s_lhs := 0; s_rhs := PUn Z.opp (PVar 0); s_temps := [12] |};
    {| s_lhs := 3; s_rhs := PVar 0; s_temps := [21] |};
    {| s_lhs := 0; s_rhs := PBin Z.add (PVar 2) (PVar 1); s_temps := [12; 13] |} ].
Definition ex_X (v : nat) (g : list nat) : Z := (5 + Z.of_nat (hd 0%nat g))%Z.
Definition ex_M (r v : nat) (o : Z) : Z := (* of block 0: processor 2 has 0-3, processor 0 has 4-6 *)
  if r =? 2 then (5 + o)%Z else (9 + o)%Z.
Example ex_prog_hyps :
  (forall v, v < 4 -> var_ok 3 (ex_O v) (ex_D v)) /\
  prog_ok 3 ex_D ex_O (fun v => v < 4) [0] ex_prog /\
  (forall v, In v [0] -> forall r, holds (v_map (ex_D v)) (v_st (ex_D v)) (fun r => ex_M r v) (ex_X v) r) /\
  map (fun i => run ex_X ex_prog 0 [i]) [0; 1; 6] = [30; 43; 138]%Z.
Proof.
  assert (A : amap_ok ex_m0 /\ amap_ok ex_m1 /\ amap_ok ex_m2 /\ amap_ok ex_m3).
  { split; [|split; [|split]]; constructor; cbn; try discriminate; try reflexivity; repeat constructor; cbn; intuition discriminate. }
  destruct A as (A0 & A1 & A2 & A3).
  assert (P : forall a, a = ex_m0 \/ a = ex_m1 \/ a = ex_m2 \/ a = ex_m3 -> forall z, z <> 0%Z -> var_ok 3 [0] (ex_var a z)).
  { intros a Ha z Hz. apply var_ok_1; [| | |exact Hz]; destruct Ha as [->|[->|[->| ->]]]; auto; cbn; repeat constructor. }
  assert (T : forall v, In v [10; 11; 12; 13; 20; 21] -> ~ v < 4 /\ var_ok 3 [0] (ex_D v) /\ unit_stride (ex_D v)).
  { intros v Hv. split; [cbn in Hv; lia|]. cbn in Hv. repeat (destruct Hv as [<-|Hv]); try contradiction;
      (split; [apply P; [cbn; auto|lia]|intros _ r; reflexivity]). }
  split; [|split; [|split; [|reflexivity]]].
  - intros v Hv. destruct v as [|[|[|[|v]]]]; try lia; apply P; auto; lia.
  - repeat apply po_cons; [..|apply po_nil]; constructor; cbn [s_lhs s_rhs s_temps leaf_vars app has_gen ex_D]; try lia; try discriminate.
    all: try solve [intros v Hv; cbn in Hv |- *; lia].
    all: try solve [intros v Hv; repeat (destruct Hv as [<-|Hv]; [reflexivity|]); destruct Hv].
    all: try solve [intros _; split; [reflexivity|]; repeat constructor; cbn; lia].
    all: try (intros _ t Ht; assert (Ht' : In t [10; 11; 12; 13; 20; 21]) by (cbn in Ht |- *; tauto);
      destruct (T t Ht') as (Q1 & Q2 & Q3); split; [exact Q1|]; split; [exact Q2|]; split; [|exact Q3];
      repeat (destruct Ht as [<-|Ht]; [reflexivity|]); destruct Ht).
    intros v [= <-] _ _ r. reflexivity.
  - intros v [<-|[]] r sb ext l g E1 E2 E3 E4. cbn [v_map ex_D ex_var] in *.
    assert (H : (r = 2 /\ sb = 0 /\ ext = [4]) \/ (r = 0 /\ sb = 1 /\ ext = [3])).
    { destruct r as [|[|[|r]]]; cbn in E1; try discriminate; injection E1 as <-; cbn in E2; injection E2 as <-; auto. }
    destruct H as [(-> & -> & ->)|(-> & -> & ->)]; inversion E3 as [|i ? i' ? H1 H2]; subst; inversion H2; subst;
      destruct i as [|[|[|[|i]]]]; try lia; vm_compute in E4; injection E4 as <-; reflexivity.
Qed.

(** The program of processor 1 for [1 = 0; 0 = - 0]: it owns elements 2 and 3
    of block 1 and nothing of block 0. *)
Example ex_prog_1 :
  spmd ex_D ex_O 99 [{| s_lhs := 1; s_rhs := PVar 0; s_temps := [20] |};
                     {| s_lhs := 0; s_rhs := PUn Z.opp (PVar 0); s_temps := [12] |}] 1
  = Some [GRecv 1 2 [0; 3]%Z].
Proof. reflexivity. Qed.

Definition ex_b0 := {| a_dims := [(Block 2, 4)]; a_pvec := [0; 1]; a_rep := false |}.
Definition ex_b1 := {| a_dims := [(Block 2, 4)]; a_pvec := [1; 0]; a_rep := false |}.
Definition ex_DB (v : nat) : var := match v with 1 => ex_var ex_b1 2 | _ => ex_var ex_b0 1 end.
Definition ex_PB (r : nat) : list (gact Z) :=
  match r with
  | 0 => [GSend 0 1 [0; 1]%Z; GRecv 9 1 [0; 1]%Z; GWait 1]
  | 1 => [GSend 0 0 [0; 1]%Z; GRecv 9 0 [0; 1]%Z; GWait 0]
  | _ => []
  end.
Definition ex_MB (r v : nat) (o : Z) : Z := if v =? 0 then (1 + 2 * Z.of_nat r + o)%Z else 0%Z.
(** A block-distributed vector assigned to a block-distributed vector that is
    not contiguous (a column of a row-major matrix, a real part, a strided
    subview): the elements received are stored into a buffer that is never
    copied to the vector.  The buffer belongs to a Persistent_data
    constructed with dda::out, but its back end is always an
    Accessor<B, L, dda::in> (dda/persistent.hpp 27). *)
Theorem C62_strided_vector_refuted : exists (D : nat -> var) (O : nat -> list nat) (P : nat -> list (gact Z)) M X k s,
  (forall v, v < 2 -> var_ok 2 (O v) (D v)) /\ a_ext (v_map (D 0)) = a_ext (v_map (D 1)) /\
  (forall r, holds (v_map (D 0)) (v_st (D 0)) (fun r => M r 0) (X 0) r) /\
  (forall r, r < 2 -> spmd D O 9 [{| s_lhs := 1; s_rhs := PVar 0; s_temps := [5] |}] r = Some (P r)) /\
  (forall r, 2 <= r -> P r = []) /\
  gsteps (fun _ _ _ => false) k {| gprog := P; gmem := M; gchan := fun _ _ => [] |} s /\
  (forall r, gprog s r = []) /\
  ~ holds (v_map (D 1)) (v_st (D 1)) (fun r => gmem s r 1) (X 0) 0.
Proof.
  assert (A : amap_ok ex_b0 /\ amap_ok ex_b1).
  { split; constructor; cbn; try discriminate; try reflexivity; repeat constructor; cbn; intuition discriminate. }
  set (S0 := {| gprog := ex_PB; gmem := ex_MB; gchan := fun _ _ => [] |}).
  assert (R : exists s, srun (fun _ _ _ => false) [0; 1; 0; 1; 0; 1] S0 = Some s /\
    gprog s 0 = [] /\ gprog s 1 = [] /\ gmem s 0 1 0%Z = 0%Z).
  { assert (Q : match srun (fun _ _ _ => false) [0; 1; 0; 1; 0; 1] S0 with
                | Some s => match gprog s 0, gprog s 1 with [], [] => (gmem s 0 1 0 =? 0)%Z | _, _ => false end
                | None => false end = true) by (vm_compute; reflexivity).
    destruct (srun _ _ S0) as [s|]; [|discriminate Q]. exists s. split; [reflexivity|].
    destruct (gprog s 0); [|discriminate Q]. destruct (gprog s 1); [|discriminate Q]. split; [reflexivity|]. split; [reflexivity|].
    apply Z.eqb_eq, Q. }
  destruct R as (s & R1 & R2 & R3 & R4).
  exists ex_DB, (fun _ => [0]), ex_PB, ex_MB, (fun _ g => Z.of_nat (S (hd 0 g))), 6, s.
  split; [|split; [reflexivity|split; [|split; [|split; [|split; [|split]]]]]].
  - intros v Hv. destruct v as [|[|v]]; [..|lia]; apply var_ok_1; try apply A; cbn; try lia; repeat constructor.
  - intros r sb ext l g E1 E2 E3 E4. cbn [v_map ex_DB ex_var] in *.
    assert (H : (r = 0 /\ sb = 0 /\ ext = [2]) \/ (r = 1 /\ sb = 1 /\ ext = [2])).
    { destruct r as [|[|r]]; cbn in E1; try discriminate; injection E1 as <-; cbn in E2; injection E2 as <-; auto. }
    destruct H as [(-> & -> & ->)|(-> & -> & ->)]; inversion E3 as [|i ? i' ? H1 H2]; subst; inversion H2; subst;
      destruct i as [|[|i]]; try lia; vm_compute in E4; injection E4 as <-; reflexivity.
  - intros r Hr. destruct r as [|[|r]]; [reflexivity|reflexivity|lia].
  - intros r Hr. destruct r as [|[|r]]; [lia|lia|reflexivity].
  - exact (srun_steps _ _ _ _ R1).
  - intros r. destruct r as [|[|r]]; [exact R2|exact R3|]. rewrite (srun_prog _ _ _ _ _ R1); [reflexivity|cbn; lia].
  - intros H. specialize (H 1 [2] [0] [2] eq_refl eq_refl). cbn in H. rewrite R4 in H.
    specialize (H ltac:(repeat constructor) eq_refl). discriminate H.
Qed.
Print Assumptions C62_strided_vector_refuted.

(** A generator assigned to a vector that is replicated over some of the
    processors: the others build the generator's local part too, for a
    subblock they do not have, against the precondition sb == 0
    (replicated_map.hpp 162). *)
Theorem C62_generator_refuted : exists (D : nat -> var) (O : nat -> list nat) (s : stmt Z),
  var_ok 2 (O (s_lhs s)) (D (s_lhs s)) /\ leaf_vars (s_rhs s) = [] /\
  (exists p, spmd D O 9 [s] 0 = Some p) /\ spmd D O 9 [s] 1 = None.
Proof.
  exists (fun _ => ex_var {| a_dims := [(Whole, 4)]; a_pvec := [0]; a_rep := true |} 1), (fun _ => [0]),
    {| s_lhs := 0; s_rhs := PGen (fun g => Z.of_nat (hd 0 g)); s_temps := [] |}.
  split; [|split; [reflexivity|split; [eexists; reflexivity|reflexivity]]].
  apply var_ok_1; try lia; try reflexivity; [|repeat constructor].
  constructor; cbn; try discriminate; try lia; repeat constructor; cbn; intuition discriminate.
Qed.
Print Assumptions C62_generator_refuted.
