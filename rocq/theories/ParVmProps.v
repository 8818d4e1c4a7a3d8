(** C97: vmmul on distributed views. *)
From Coq Require Import List Arith ZArith Lia Bool.
From Verif Require Import Base Dist Traversal Map SubMap ParVm ParVmProofs.
Import ListNotations.
Local Open Scope nat_scope.

(** C97.  When the assignment of vmmul<vd>(v, m) to a distributed matrix is
    carried out, every processor that holds an element (i, j) of the
    destination stores the product of m(i, j) by the right element of the
    vector there, although it reads its own parts of the operands only. *)
Theorem C97_local_product :
  forall V W X (mul : V -> W -> X) vd all lhs rows cols v m lv lm x a out,
  vd < 2 -> built lhs -> length (u_d lhs) = 3 -> apply_map lhs [rows; cols] <> None ->
  Forall (fun pr => In pr all) (u_pvec lhs) ->
  has_vector v (if vd =? 0 then cols else rows) lv x -> has_matrix m rows cols lm a ->
  vm_assign mul vd all lhs [rows; cols] v m lv lm = Some out ->
  forall i j pr l, i < rows -> j < cols -> placed lhs [rows; cols] [i; j] pr l ->
  out pr l = Some (mul (x (if vd =? 0 then j else i)) (a i j)).
Proof. intros V W X. exact product_ok. Qed.
Print Assumptions C97_local_product.

(** It is carried out if the operand is mapped like the destination and the
    vector is either replicated on all processors, with no division of the
    matrix along the vector, or mapped like the first row or column, with no
    division across. *)
Theorem C97_carried_out :
  forall V W X (mul : V -> W -> X) vd all lhs rows cols v lv lm d0 d1 d2,
  vd < 2 -> u_d lhs = [d0; d1; d2] ->
  (v = VRep all /\ num_subblocks (if vd =? 0 then d1 else d0) = 1) \/
  (num_subblocks (if vd =? 0 then d0 else d1) = 1 /\ exists w, v = VMap w /\ project1 vd lhs [rows; cols] 0 = Some w) ->
  exists out, vm_assign mul vd all lhs [rows; cols] v lhs lv lm = Some out.
Proof.
  intros V W X mul vd all lhs rows cols v lv lm d0 d1 d2 Hvd HD H.
  assert (L : forall l, list_eqb l l = true) by (induction l as [|y l IH]; cbn; [reflexivity|rewrite Nat.eqb_refl; exact IH]).
  assert (E : forall u, map_eq u u = true).
  { intros u. unfold map_eq. rewrite L, andb_true_r. induction (u_d u) as [|y l IH]; cbn; [reflexivity|rewrite !Nat.eqb_refl; exact IH]. }
  assert (S : vm_same_map vd all lhs [rows; cols] v lhs = Some true).
  { unfold vm_same_map, dim_blocks. rewrite HD. destruct vd as [|[|vd]]; [| |lia]; cbn [Nat.sub nth_error bind Nat.eqb] in *;
      destruct H as [(-> & N)|(N & w & -> & P)]; cbn [everywhere maps_as andb]; rewrite ?L, ?E, ?N, ?P; cbn [bind Nat.eqb andb maps_as]; rewrite ?E; reflexivity. }
  unfold vm_assign. rewrite S. cbn [bind]. eexists. reflexivity.
Qed.
Print Assumptions C97_carried_out.

(** A 4 x 6 matrix with its columns in two blocks, the second on processor 0;
    the vector of six is mapped alike; then its rows in two blocks with the
    vector replicated. *)
Definition ex_u := {| u_d := [Whole; Block 2; Block 1]; u_pvec := [1; 0] |}.
Definition ex_w := {| u_d := [Block 2; Block 1; Block 1]; u_pvec := [1; 0] |}.
Definition ex_r := {| u_d := [Block 2; Whole; Block 1]; u_pvec := [1; 0] |}.
Definition ex_lv (pr i : nat) : nat := if pr =? 1 then 10 + i else 13 + i.
Definition ex_lm (pr : nat) (l : list nat) : nat :=
  match l with [i; j] => 100 * i + (if pr =? 1 then j else 3 + j) | _ => 0 end.
Definition ex_rm (pr : nat) (l : list nat) : nat :=
  match l with [i; j] => 100 * (if pr =? 1 then i else 2 + i) + j | _ => 0 end.

Lemma ex_six i : i < 6 -> i = 0 \/ i = 1 \/ i = 2 \/ i = 3 \/ i = 4 \/ i = 5. Proof. lia. Qed.
Lemma ex_four i : i < 4 -> i = 0 \/ i = 1 \/ i = 2 \/ i = 3. Proof. lia. Qed.
Example C97_example :
  built ex_u /\ apply_map ex_u [4; 6] <> None /\ project1 0 ex_u [4; 6] 0 = Some ex_w /\
  has_vector (VMap ex_w) 6 ex_lv (fun i => 10 + i) /\
  has_matrix ex_u 4 6 ex_lm (fun i j => 100 * i + j) /\
  placed ex_u [4; 6] [2; 4] 0 [2; 1] /\
  match vm_assign Nat.mul 0 [0; 1; 2] ex_u [4; 6] (VMap ex_w) ex_u ex_lv ex_lm with
  | Some out => out 0 [2; 1] = Some (14 * 204) | None => False end /\
  match vm_assign Nat.mul 0 [0; 1; 2] ex_r [4; 6] (VRep [0; 1; 2]) ex_r (fun _ i => 10 + i) ex_rm with
  | Some out => out 0 [0; 5] = Some (15 * 205) | None => False end.
Proof.
  split; [split; [repeat constructor|reflexivity]|]. split; [discriminate|]. split; [reflexivity|].
  split. { intros pr i l Hi (m & sb & ps & A & B & C & D & E). injection A as <-.
    destruct (ex_six i Hi) as [->|[->|[->|[->|[-> | ->]]]]]; vm_compute in B; injection B as <-; vm_compute in C; injection C as <-;
      destruct D as [<-|[]]; vm_compute in E; injection E as <-; reflexivity. }
  split. { intros pr i j l Hi Hj (m & sb & ps & A & B & C & D & E). injection A as <-.
    destruct (ex_four i Hi) as [->|[->|[-> | ->]]]; destruct (ex_six j Hj) as [->|[->|[->|[->|[-> | ->]]]]];
      vm_compute in B; injection B as <-; vm_compute in C; injection C as <-;
      destruct D as [<-|[]]; vm_compute in E; injection E as <-; reflexivity. }
  split. { eexists _, _, _. split; [reflexivity|]. split; [reflexivity|]. split; [reflexivity|]. split; [left; reflexivity|reflexivity]. }
  split; reflexivity.
Qed.

(** Limitation: a vector replicated on all processors of the matrix is refused,
    with the exception for unimplemented operations, if the program runs on
    further processors: the test compares with the map replicated on all
    processors of the program (vmmul.hpp 141). *)
Theorem C97_replicated_refuted :
  exists all lhs rows cols p, built lhs /\ apply_map lhs [rows; cols] <> None /\
  (forall pr, In pr (u_pvec lhs) -> In pr p) /\ (forall pr, In pr p -> In pr all) /\
  dim_blocks lhs 1 = Some 1 /\
  forall (lv : nat -> nat -> Z) lm, vm_assign Z.mul 0 all lhs [rows; cols] (VRep p) lhs lv lm = None.
Proof.
  exists [0; 1; 2], ex_r, 4, 6, [0; 1].
  split; [split; [repeat constructor|reflexivity]|]. split; [discriminate|].
  split; [cbn; intuition|]. split; [cbn; intuition|]. split; [reflexivity|]. intros lv lm. reflexivity.
Qed.
Print Assumptions C97_replicated_refuted.

(** Limitation: so is a vector each element of which is on the same processor
    as its column if its map is of another class than the projected map, in
    which the dimensions left over have the class Block_dist. *)
Theorem C97_same_placement_refuted :
  exists all lhs rows cols w p, built lhs /\ built w /\ apply_map lhs [rows; cols] <> None /\
  dim_blocks lhs 0 = Some 1 /\ project1 0 lhs [rows; cols] 0 = Some p /\
  (forall j pr l, j < cols -> (placed w [cols] [j] pr l <-> placed p [cols] [j] pr l)) /\
  forall (lv : nat -> nat -> Z) lm, vm_assign Z.mul 0 all lhs [rows; cols] (VMap w) lhs lv lm = None.
Proof.
  exists [0; 1; 2], ex_u, 4, 6, {| u_d := [Block 2; Whole; Whole]; u_pvec := [1; 0] |}, ex_w.
  split; [split; [repeat constructor|reflexivity]|]. split; [split; [repeat constructor|reflexivity]|]. split; [discriminate|].
  split; [reflexivity|]. split; [reflexivity|]. split; [|intros; reflexivity].
  intros j pr l Hj. split; intros (m & sb & ps & A & B & C & D & E); injection A as <-; exists [(Block 2, 6)], sb, ps; auto.
Qed.
Print Assumptions C97_same_placement_refuted.
