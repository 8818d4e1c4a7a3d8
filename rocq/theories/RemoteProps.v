(** * C73: working on distributed blocks through local data *)
From Coq Require Import List Arith ZArith Lia Bool.
From Verif Require Import Base Layout LayoutProofs Dist Domain Traversal Map ParAssign ParSeq ParSeqProofs Remote RemoteProofs.
Import ListNotations.
Local Open Scope nat_scope.

(** Every processor runs the same sequence of assignments and of accesses to
    distributed blocks through pointers to local data, doing the same work on these.  Whatever
    the order in which the processors run and messages arrive: no processor
    fails, the program stops after a bounded number of steps, and where nobody can move everybody has
    finished, no message is left over, and all blocks and local data have
    the contents one processor with ordinary arrays gives them. *)
Theorem C73_program : forall V (eager : nat -> nat -> nat -> bool) n D O buf (U : nat -> Prop) I (is : list (item V))
    (M : nat -> nat -> Z -> V) (X : nat -> list nat -> V),
  (forall v, U v -> var_ok n (O v) (D v)) ->
  (forall v, In v I -> U v) ->
  items_ok n D O U I is ->
  (forall v, In v I -> forall r, holds (v_map (D v)) (v_st (D v)) (fun r => M r v) (X v) r) ->
  exists P N,
  (forall r, r < n -> items_program D O buf is r = Some (P r)) /\
  (forall r, n <= r -> P r = []) /\
  forall k s, gsteps eager k {| gprog := P; gmem := M; gchan := fun _ _ => [] |} s ->
    k <= N /\
    ((exists r t, pstep eager r s = Some t) \/
     ((forall r, gprog s r = []) /\ (forall p q, gchan s p q = []) /\
      (forall v, In v (concat (map outputs is)) \/ In v I ->
         forall r, holds (v_map (D v)) (v_st (D v)) (fun r => gmem s r v) (run_items X is v) r))).
Proof.
  intros V eager n D O buf U I is M X UV IU OK HI.
  exact (items_end eager n D O buf U UV is I M X OK IU HI).
Qed.

(** Four elements on three processors: 0 in two blocks; 1, the local data, with stride 2; 2 and 3
    replicated; 4 cyclic. *)
Definition ex_var (a : amap) (z : Z) : var := {| v_map := a; v_st := fun _ => [z]; v_bbb := false |}.
Definition ex_m0 := {| a_dims := [(Block 2, 4)]; a_pvec := [2; 0]; a_rep := false |}.
Definition ex_m4 := {| a_dims := [(Cyclic 2 1, 4)]; a_pvec := [0; 1]; a_rep := false |}.
Definition ex_D (v : nat) : var :=
  match v with
  | 0 => ex_var ex_m0 1 | 1 => ex_var (everywhere 3 [4]) 2 | 4 => ex_var ex_m4 1 | _ => ex_var (everywhere 3 [4]) 1
  end.
Fixpoint sums (s : Z) (l : list Z) : list Z := match l with [] => [] | x :: r => (s + x)%Z :: sums (s + x)%Z r end.
Definition ex_access (i o : bool) (w : list Z -> list Z) : access Z :=
  {| ac_block := 0; ac_local := 1; ac_repl_in := 2; ac_repl_out := 3; ac_in := i; ac_out := o; ac_modifiable := true;
     ac_idx := [[0]; [1]; [2]; [3]]; ac_work := w |}.
(** Running sums in place; 4 = 0; then new values in the same elements. *)
Definition ex_items : list (item Z) :=
  [ IAccess (ex_access true true (sums 0)); IStmt {| s_lhs := 4; s_rhs := PVar 0; s_temps := [] |};
    IAccess (ex_access false true (fun _ => [7; 8; 9; 10]%Z)) ].
Definition ex_X (v : nat) (g : list nat) : Z := (5 + Z.of_nat (hd 0%nat g))%Z.
Definition ex_M (r v : nat) (o : Z) : Z := if r =? 2 then (5 + o)%Z else (7 + o)%Z.
Example C73_program_ex :
  (forall v, v < 5 -> var_ok 3 [0] (ex_D v)) /\ items_ok 3 ex_D (fun _ => [0]) (fun v => v < 5) [0] ex_items /\
  (forall v, In v [0] -> forall r, holds (v_map (ex_D v)) (v_st (ex_D v)) (fun r => ex_M r v) (ex_X v) r) /\
  map (fun v => map (fun i => run_items ex_X ex_items v [i]) [0; 1; 2; 3]) [0; 1; 4] = [[7; 8; 9; 10]; [7; 8; 9; 10]; [5; 11; 18; 26]]%Z /\
  items_program ex_D (fun _ => [0]) 99 [IAccess (ex_access true true (sums 0))] 1
   = Some [GRecv 2 2 [0; 1]%Z; GRecv 2 0 [2; 3]%Z;
           GEval 1 [(0, RRead 2 0); (2, RRead 2 1); (4, RRead 2 2); (6, RRead 2 3)]%Z;
           GWork 1 [0; 2; 4; 6]%Z (sums 0);
           GEval 3 [(0, RRead 1 0); (1, RRead 1 2); (2, RRead 1 4); (3, RRead 1 6)]%Z].
Proof.
  assert (A : forall a z, In a [ex_m0; ex_m4; everywhere 3 [4]] -> z <> 0%Z -> var_ok 3 [0] (ex_var a z)).
  { intros a z Ha Hz. apply var_ok_1; [| | |exact Hz]; cbn in Ha; repeat (destruct Ha as [<-|Ha]; [|]); try contradiction Ha; try (cbn; repeat constructor; fail);
      (constructor; cbn; try discriminate; try reflexivity; repeat constructor; cbn; intuition (discriminate || lia)). }
  assert (IX : forall g, In g [[0]; [1]; [2]; [3]] <-> in_range [4] g).
  { intros g. split.
    - intros H. cbn in H. repeat (destruct H as [<-|H]; [repeat constructor; lia|]). destruct H.
    - intros H. inversion H as [|i ? i' ? H1 H2]; subst. inversion H2; subst. destruct i as [|[|[|[|i]]]]; cbn; auto; lia. }
  assert (AO : forall i o w I, In 0 I -> ~ In 2 I -> ~ In 3 I -> (forall x, length x = 4 -> length (w x) = 4) -> (i = false -> forall x y, w x = w y) -> access_ok 3 ex_D (fun v => v < 5) I (ex_access i o w)).
  { intros i o w I H0 H2 H3 Hw Hi. constructor; cbn [ex_access ac_block ac_local ac_repl_in ac_repl_out ac_in ac_idx ac_work].
    - lia.
    - repeat constructor; cbn; intuition discriminate.
    - auto.
    - auto.
    - intros v Hv. cbn in Hv. repeat (destruct Hv as [<-|Hv]; [reflexivity|]). destruct Hv.
    - split; [repeat constructor; cbn; intuition discriminate|exact IX].
    - exact Hw.
    - intros E x y _ _. apply Hi, E. }
  split; [|split; [|split; [|split]]].
  - intros v Hv. destruct v as [|[|[|[|[|v]]]]]; try lia; apply A; cbn; auto; lia.
  - unfold ex_items. apply io_access; [|apply io_stmt; [|apply io_access; [|apply io_nil]]]; cbn [outputs ex_access ac_local ac_out ac_modifiable ac_block andb app s_lhs].
    + apply AO; cbn; try lia; try discriminate. intros x Hx. destruct x as [|a [|b [|c [|d [|e x]]]]]; try discriminate Hx. reflexivity.
    + constructor; cbn; try lia; try (intros H; exfalso; exact (H 0 eq_refl)); try discriminate.
      intros v [<-|[]]. reflexivity.
    + apply AO; cbn; try lia; auto.
  - intros v [<-|[]] r sb ext l g E1 E2 E3 E4. cbn [v_map ex_D ex_var] in *.
    assert (H : (r = 2 /\ sb = 0 /\ ext = [2]) \/ (r = 0 /\ sb = 1 /\ ext = [2])).
    { destruct r as [|[|[|r]]]; cbn in E1; try discriminate; injection E1 as <-; cbn in E2; injection E2 as <-; auto. }
    destruct H as [(-> & -> & ->)|(-> & -> & ->)]; inversion E3 as [|i ? i' ? H1 H2]; subst; inversion H2; subst;
      destruct i as [|[|i]]; try lia; vm_compute in E4; injection E4 as <-; reflexivity.
  - vm_compute. reflexivity.
  - vm_compute. reflexivity.
Qed.

(** The local data of a dense layout fit in the memory allocated for them. *)
Theorem C73_storage : forall o ext l, Forall (fun n => (0 <= n)%Z) ext -> make_layout o P_dense ext = Some l -> Layout.fits l ext ->
  forall i, Layout.in_range ext i -> exists a, index l i = Some a /\ (0 <= a < remote_storage ext)%Z.
Proof.
  intros o ext l N E F i Hi. destruct (make_layout_own o P_dense ext l N E F) as [H _]. destruct (H i Hi) as (a & Ea & La). exists a. split; [exact Ea|].
  unfold remote_storage. rewrite <- (proj2 (make_layout_dense_onto o ext l N E)). exact La.
Qed.
Example C73_storage_ex : exists l, make_layout [1;0] P_dense [2;3]%Z = Some l /\ index l [1;2]%Z = Some 5%Z /\ remote_storage [2;3]%Z = 6%Z.
Proof. eexists. repeat split. Qed.

(** With a padded layout they do not: as many elements are allocated as the block has,
    not as many as the layout needs; the local copy of a 2 by 3 block with
    aligned rows is stored beyond the end of the allocation. *)
Theorem C73_padded_refuted : exists l, make_layout [0;1] (P_aligned 16) [2;3]%Z = Some l /\ Layout.fits l [2;3]%Z /\
  index l [1;0]%Z = Some 16%Z /\ required_buffer_size l = 19%Z /\ remote_storage [2;3]%Z = 6%Z.
Proof.
  eexists. split; [reflexivity|]. split; [|repeat split].
  intros d Hd. cbn in Hd. destruct d as [|[|d]]; [vm_compute; reflexivity..|lia].
Qed.

Print Assumptions C73_program.
Print Assumptions C73_storage.
Print Assumptions C73_padded_refuted.
