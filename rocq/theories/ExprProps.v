(** C55: assigning an expression evaluates it as if all operands were read first.
    C56: operators, sizes, compound assignment and vmmul. *)
From Coq Require Import ZArith List Lia Bool Arith.
From Verif Require Import Base Expr ExprProofs.
Import ListNotations.
Local Open Scope nat_scope.

(** * C55 *)
(** For every expression tree, of stored views, scalars, generators,
    elementwise operations, sub-views and whole-view (non-elementwise)
    operations: afterwards every element of the destination holds the value
    the expression had before, and no other cell has changed.  Elementwise
    operands may be the destination itself; the operands of whole-view
    operations may overlap it in any way. *)
Theorem C55_vector_assign : forall (R : CRing) (dv : R -> R -> R) (cv : R -> R) (lhs : blk) (e : expr R) (m : mem R),
  length (bsz lhs) = 1 -> ready dv m e -> own m lhs -> no_cross lhs e ->
  (forall i, inb i (bsz lhs) = true -> val dv m e i <> None) ->
  exists m', fuse1 dv cv lhs e m = Some m' /\ assigned dv cv lhs e m m'.
Proof. intros R dv cv lhs e m HL Hr Ho Hn Hv. exact (fuse1_ok dv cv lhs e m HL (conj Hr (conj Ho (conj Hn Hv)))). Qed.

Theorem C55_matrix_assign : forall (R : CRing) (dv : R -> R -> R) (o : ord2) (cv : R -> R) (lhs : blk) (e : expr R) (m : mem R),
  length (bsz lhs) = 2 -> ready dv m e -> own m lhs -> no_cross lhs e ->
  (forall i, inb i (bsz lhs) = true -> val dv m e i <> None) ->
  exists m', fuse2 dv o cv lhs e m = Some m' /\ assigned dv cv lhs e m m'.
Proof. intros R dv o cv lhs e m HL Hr Ho Hn Hv. exact (fuse2_ok dv o cv lhs e m HL (conj Hr (conj Ho (conj Hn Hv)))). Qed.

Theorem C55_tensor_assign : forall (R : CRing) (dv : R -> R -> R) (o : ord3) (cv : R -> R) (lhs : blk) (e : expr R) (m : mem R),
  length (bsz lhs) = 3 -> ready dv m e -> own m lhs -> no_cross lhs e ->
  (forall i, inb i (bsz lhs) = true -> val dv m e i <> None) ->
  exists m', fuse3 dv o cv lhs e m = Some m' /\ assigned dv cv lhs e m m'.
Proof. intros R dv o cv lhs e m HL Hr Ho Hn Hv. exact (fuse3_ok dv o cv lhs e m HL (conj Hr (conj Ho (conj Hn Hv)))). Qed.

(** A well-formed expression over allocated views has a value at every index. *)
Theorem C55_defined : forall (R : CRing) (dv : R -> R -> R) (m : mem R) (e : expr R) (sz i : list nat),
  conforms sz e -> ready dv m e -> leaves_mapped m e -> inb i sz = true -> val dv m e i <> None.
Proof. exact @conforms_val. Qed.

(** v = cumulative sum of v reversed (a whole-view operation), plus v times w. *)
Definition vz (p : Z) : blk := {| bsz := [3]; baddr := fun i => match i with [k] => (p + Z.of_nat k)%Z | _ => 0%Z end |}.
Definition revcum (x : list nat -> option Z) : option (list nat -> Z) :=
  a <- x [2] ;; b <- x [1] ;; c <- x [0] ;;
  Some (fun i => match i with [0] => a | [1] => (a + b)%Z | _ => (a + b + c)%Z end).
Definition ex_e : expr Zring := Bin (R:=Zring) Add (Un (R:=Zring) Plus (Ne1 (R:=Zring) [3] revcum (Leaf (vz 0)) None)) (Bin (R:=Zring) Mult (Leaf (vz 0)) (Leaf (vz 3))).
Definition ex_m : mem Zring := mem_of (map Z.of_nat [1; 2; 3; 10; 20; 30]).
Lemma inb_vz i : inb i [3] = true -> i = [0] \/ i = [1] \/ i = [2].
Proof. destruct i as [|[|[|[|x]]] [|? ?]]; simpl; auto; discriminate. Qed.
Example C55_example :
  ready (R:=Zring) Z.div ex_m ex_e /\ own ex_m (vz 0) /\ no_cross (vz 0) ex_e /\ conforms [3] ex_e /\ leaves_mapped ex_m ex_e /\
  exists m', fuse1 (R:=Zring) Z.div (fun x => x) (vz 0) ex_e ex_m = Some m' /\
    map m' [0; 1; 2; 3]%Z = map Some [13; 45; 96; 10]%Z.
Proof.
  split; [|split; [|split; [|split; [|split]]]].
  - simpl. split; [|auto]. split; [auto|]. split.
    + split; [discriminate|auto].
    + intros x x' H. unfold revcum. rewrite !H. reflexivity.
  - split; [intros i Hi; apply inb_vz in Hi; destruct Hi as [-> | [-> | ->]]; discriminate|].
    intros i j Hi Hj E. apply inb_vz in Hi, Hj. destruct Hi as [-> | [-> | ->]], Hj as [-> | [-> | ->]]; simpl in E; try reflexivity; lia.
  - intros i j Hi Hj. apply inb_vz in Hi, Hj. destruct Hi as [-> | [-> | ->]], Hj as [-> | [-> | ->]]; simpl; intros Hn K;
      destruct K as [[]|[K|K]]; try lia; apply Hn; reflexivity.
  - simpl; repeat split; auto 10.
  - simpl. split; [auto|]. split; intros i Hi; apply inb_vz in Hi; destruct Hi as [-> | [-> | ->]]; discriminate.
  - eexists. split; [vm_compute; reflexivity|]. reflexivity.
Qed.

(** What the condition on shared elements excludes: v(1..2) = -v(0..1) on the
    same storage reads an element already overwritten. *)
Definition v2 (p : Z) : blk := {| bsz := [2]; baddr := fun i => match i with [k] => (p + Z.of_nat k)%Z | _ => 0%Z end |}.
Example C55_overlap_example :
  exists m', fuse1 (R:=Zring) Z.div (fun x => x) (v2 1) (Un (R:=Zring) Minus (Leaf (v2 0))) ex_m = Some m' /\
    val (R:=Zring) Z.div ex_m (Un (R:=Zring) Minus (Leaf (v2 0))) [1] = Some (-2)%Z /\
    m' 2%Z = Some 1%Z.
Proof. eexists. split; [vm_compute; reflexivity|]. split; reflexivity. Qed.

(** * C56 *)
(** An operator between two operands has the value of the plain operation,
    whether or not a product is fused into a multiply-add; it reads the same
    cells and has the size of its operands. *)
Theorem C56_operators : forall (R : CRing) (dv : R -> R -> R) (o : aop) (m : mem R) (l r : expr R) (i : list nat),
  val dv m (apply_op o l r) i =
  (x <- val dv m l i ;; y <- val dv m r i ;;
   Some (match o with PlusEq => radd x y | MinusEq => rsub x y | TimesEq => rmul x y | DivEq => dv x y end)) /\
  (forall a, reads (apply_op o l r) i a <-> reads l i a \/ reads r i a).
Proof. intros R dv o m l r i. split; [apply apply_op_val|intros a; apply apply_op_reads]. Qed.

Theorem C56_operator_size : forall (R : CRing) (o : aop) (d : nat) (sz : list nat) (l r : expr R),
  (sized l = false \/ conforms sz l) -> (sized r = false \/ conforms sz r) -> (sized l || sized r) = true ->
  conforms sz (apply_op o l r) /\ esize d (apply_op o l r) = sz.
Proof. intros R o d sz l r Hl Hr Hs. split; [|apply esize_conforms]; apply apply_op_conforms; assumption. Qed.

Theorem C56_size : forall (R : CRing) (d : nat) (e : expr R) (sz : list nat), conforms sz e -> esize d e = sz.
Proof. exact @esize_conforms. Qed.

(** A scalar takes the size of the other operand, on either side of every operator. *)
Theorem C56_scalar_operand : forall (R : CRing) (o : aop) (d : nat) (sz : list nat) (x : R) (e : expr R), conforms sz e ->
  esize d (apply_op o (Scal x) e) = sz /\ esize d (apply_op o e (Scal x)) = sz.
Proof.
  intros R o d sz x e H. assert (S : sized e = true) by (destruct e; [reflexivity | destruct H | reflexivity ..]).
  split; apply esize_conforms, apply_op_conforms; cbn [sized]; auto; rewrite S; reflexivity.
Qed.
Print Assumptions C56_scalar_operand.

(** 2 * v + w and w + 2 * v are fused: the same value, size 3. *)
Example C56_operators_example :
  let p := op_mul (Scal (2%Z : Zring)) (Leaf (vz 0)) in let w := Leaf (vz 3) in
  op_add p w = Ter Ma (Scal (2%Z : Zring)) (Leaf (vz 0)) w /\
  val (R:=Zring) Z.div ex_m (op_add p w) [1] = Some 24%Z /\
  val (R:=Zring) Z.div ex_m (op_add w p) [1] = Some 24%Z /\ esize 1 (op_add p w) = [3].
Proof. cbv zeta. repeat split. Qed.

(** Compound assignment of vectors and matrices, +=, -=, *= and /=, with a
    view, an expression or a scalar; the scalar may be an element of the
    destination. *)
Theorem C56_vector_compound : forall (R : CRing) (dv : R -> R -> R) (o : aop) (b : blk) (rhs : expr R) (m : mem R),
  length (bsz b) = 1 -> ready dv m rhs -> own m b -> no_cross b rhs ->
  (forall i, inb i (bsz b) = true -> val dv m rhs i <> None) ->
  exists m', assign_op1 dv o b rhs m = Some m' /\ assigned dv (fun x => x) b (Bin (bin_of o) (Leaf b) rhs) m m'.
Proof. exact @assign_op1_ok. Qed.

Theorem C56_matrix_compound : forall (R : CRing) (dv : R -> R -> R) (ord : ord2) (o : aop) (b : blk) (rhs : expr R) (m : mem R),
  length (bsz b) = 2 -> ready dv m rhs -> own m b -> no_cross b rhs ->
  (forall i, inb i (bsz b) = true -> val dv m rhs i <> None) ->
  exists m', assign_op2 dv ord o b rhs m = Some m' /\ assigned dv (fun x => x) b (Bin (bin_of o) (Leaf b) rhs) m m'.
Proof. exact @assign_op2_ok. Qed.

(** v *= v(0): all elements are multiplied by the old value of v(0). *)
Example C56_compound_example :
  ready (R:=Zring) Z.div ex_m (Scal (3%Z : Zring)) /\ own ex_m (vz 2) /\ no_cross (vz 2) (Scal (3%Z : Zring)) /\
  exists s, bload ex_m (vz 2) [0] = Some s /\
  exists m', assign_op1 (R:=Zring) Z.div TimesEq (vz 2) (Scal s) ex_m = Some m' /\
    map m' [1; 2; 3; 4; 5]%Z = map Some [2; 9; 30; 60; 30]%Z.
Proof.
  split; [exact I|]. split; [|split].
  - split; [intros i Hi; apply inb_vz in Hi; destruct Hi as [-> | [-> | ->]]; discriminate|].
    intros i j Hi Hj E. apply inb_vz in Hi, Hj. destruct Hi as [-> | [-> | ->]], Hj as [-> | [-> | ->]]; simpl in E; try reflexivity; lia.
  - intros i j Hi Hj Hn K. exact K.
  - exists 3%Z. split; [reflexivity|]. eexists. split; [vm_compute; reflexivity|reflexivity].
Qed.

(** The bitwise compound assignments of vectors and matrices and all compound
    assignments of tensors, with a view or a scalar.  Missing from the full
    statement: a scalar that is an element of the destination, see
    C56_tensor_own_element_refuted and C56_bitwise_own_element_refuted. *)
Theorem C56_element_loops_partial : forall (R : CRing) (dv : R -> R -> R) (f : R -> R -> R) (b : blk) (v : operand) (m : mem R),
  own m b -> separate m b v ->
  (length (bsz b) = 1 -> exists m', nofwd1 f b v m = Some m' /\
     assigned dv (fun x => x) b (Bin (Fn2 f) (Leaf b) (operand_expr (bsz b) v)) m m') /\
  (length (bsz b) = 2 -> exists m', nofwd2 f b v m = Some m' /\
     assigned dv (fun x => x) b (Bin (Fn2 f) (Leaf b) (operand_expr (bsz b) v)) m m') /\
  (length (bsz b) = 3 -> exists m', nofwd3 f b v m = Some m' /\
     assigned dv (fun x => x) b (Bin (Fn2 f) (Leaf b) (operand_expr (bsz b) v)) m m').
Proof.
  intros R dv f b v m Ho Hs.
  split; [|split]; intros HL; [apply nofwd1_ok|apply nofwd2_ok|apply nofwd3_ok]; assumption.
Qed.

(** Views of another shape are rejected before anything is written. *)
Theorem C56_element_loops_reject : forall (R : CRing) (f : R -> R -> R) (b b' : blk) (m : mem R),
  bsz b' <> bsz b -> nofwd1 f b (View b') m = None /\ nofwd2 f b (View b') m = None /\ nofwd3 f b (View b') m = None.
Proof. exact @nofwd_reject. Qed.

Example C56_element_loops_example :
  own ex_m (vz 0) /\ separate ex_m (vz 0) (View (vz 3)) /\ separate ex_m (vz 0) (ByRef 4) /\
  exists m', nofwd1 (R:=Zring) Z.lxor (vz 0) (ByRef 4) ex_m = Some m' /\ map m' [0; 1; 2; 3]%Z = map Some [21; 22; 23; 10]%Z.
Proof.
  split; [|split; [|split]].
  - split; [intros i Hi; apply inb_vz in Hi; destruct Hi as [-> | [-> | ->]]; discriminate|].
    intros i j Hi Hj E. apply inb_vz in Hi, Hj. destruct Hi as [-> | [-> | ->]], Hj as [-> | [-> | ->]]; simpl in E; try reflexivity; lia.
  - simpl. split; [reflexivity|]. split.
    + intros i Hi. apply inb_vz in Hi. destruct Hi as [-> | [-> | ->]]; discriminate.
    + intros i j Hi Hj _. apply inb_vz in Hi, Hj. destruct Hi as [-> | [-> | ->]], Hj as [-> | [-> | ->]]; simpl; lia.
  - simpl. split; [discriminate|]. intros i Hi. apply inb_vz in Hi. destruct Hi as [-> | [-> | ->]]; simpl; lia.
  - eexists. split; [vm_compute; reflexivity|reflexivity].
Qed.

(** Finding: tensors take the scalar by reference, so that t += t(0,0,0)
    adds the old value of t(0,0,0) to that element and twice the old value to all others. *)
Definition tz : blk := {| bsz := [1; 1; 2]; baddr := fun i => match i with [_; _; k] => Z.of_nat k | _ => 0%Z end |}.
Theorem C56_tensor_own_element_refuted :
  exists (b : blk) (m m' : mem Zring),
    length (bsz b) = 3 /\ own m b /\
    nofwd3 (R:=Zring) Z.add b (ByRef (baddr b [0; 0; 0])) m = Some m' /\
    m (baddr b [0; 0; 0]) = Some 1%Z /\ m (baddr b [0; 0; 1]) = Some 2%Z /\
    m' (baddr b [0; 0; 0]) = Some 2%Z /\ m' (baddr b [0; 0; 1]) = Some 4%Z.
Proof.
  exists tz, ex_m. eexists. refine (conj eq_refl (conj _ (conj _ _))).
  - split.
    + intros i Hi. apply inb3 in Hi; [|reflexivity]. destruct Hi as (x & y & z & -> & Hx & Hy & Hz). simpl in *.
      destruct z as [|[|z]]; [discriminate|discriminate|lia].
    + intros i j Hi Hj E. apply inb3 in Hi; [|reflexivity]. apply inb3 in Hj; [|reflexivity].
      destruct Hi as (x & y & z & -> & Hx & Hy & Hz), Hj as (x' & y' & z' & -> & Hx' & Hy' & Hz'). simpl in *.
      repeat f_equal; lia.
  - vm_compute; reflexivity.
  - repeat split.
Qed.

(** Finding: likewise v ^= v(0) clears v(0) and leaves the rest unchanged. *)
Theorem C56_bitwise_own_element_refuted :
  exists (b : blk) (m m' : mem Zring),
    length (bsz b) = 1 /\ own m b /\
    nofwd1 (R:=Zring) Z.lxor b (ByRef (baddr b [0])) m = Some m' /\
    m (baddr b [0]) = Some 3%Z /\ m (baddr b [1]) = Some 10%Z /\
    m' (baddr b [0]) = Some 0%Z /\ m' (baddr b [1]) = Some 10%Z.
Proof.
  exists (vz 2), ex_m. eexists. refine (conj eq_refl (conj _ (conj _ _))).
  - split; [intros i Hi; apply inb_vz in Hi; destruct Hi as [-> | [-> | ->]]; discriminate|].
    intros i j Hi Hj E. apply inb_vz in Hi, Hj. destruct Hi as [-> | [-> | ->]], Hj as [-> | [-> | ->]]; simpl in E; try reflexivity; lia.
  - vm_compute; reflexivity.
  - repeat split.
Qed.

(** vmmul<D>(v, m) with stored operands: row-wise or column-wise evaluation
    stores v(c) * m(r,c) (or v(r) * m(r,c)) everywhere; lhs may be m itself. *)
Theorem C56_vmmul : forall (R : CRing) (dv : R -> R -> R) (o : ord2) (byrow : bool) (lhs v a : blk) (m : mem R) (rows cols : nat),
  bsz lhs = [rows; cols] -> bsz a = [rows; cols] -> bsz v = [if byrow then cols else rows] ->
  own m lhs -> mapped m v -> mapped m a -> no_cross (R:=R) lhs (Vmm byrow (Leaf v) (Leaf a)) ->
  exists m', vmmul dv o byrow lhs v a m = Some m' /\
    assigned dv (fun x => x) lhs (Vmm byrow (Leaf v) (Leaf a)) m m'.
Proof. exact @vmmul_ok. Qed.

Definition mz (p : Z) : blk := {| bsz := [2; 2]; baddr := fun i => match i with [r; c] => (p + 2 * Z.of_nat r + Z.of_nat c)%Z | _ => 0%Z end |}.
Example C56_vmmul_example :
  own ex_m (mz 2) /\ mapped ex_m (v2 0) /\ no_cross (R:=Zring) (mz 2) (Vmm true (Leaf (v2 0)) (Leaf (mz 2))) /\
  exists m', vmmul (R:=Zring) Z.div O10 true (mz 2) (v2 0) (mz 2) ex_m = Some m' /\
    map m' [0; 1; 2; 3; 4; 5]%Z = map Some [1; 2; 3; 20; 20; 60]%Z.
Proof.
  assert (I2 : forall i, inb i [2; 2] = true -> exists x y, i = [x; y] /\ x < 2 /\ y < 2) by (intros i Hi; apply inb2 in Hi; auto).
  split; [|split; [|split]].
  - split.
    + intros i Hi. apply I2 in Hi. destruct Hi as (x & y & -> & Hx & Hy).
      destruct x as [|[|x]], y as [|[|y]]; try lia; discriminate.
    + intros i j Hi Hj E. apply I2 in Hi, Hj. destruct Hi as (x & y & -> & Hx & Hy), Hj as (x' & y' & -> & Hx' & Hy').
      cbn [baddr mz] in E. assert (x = x' /\ y = y') as (-> & ->) by lia. reflexivity.
  - intros i Hi. simpl in Hi. destruct i as [|[|[|x]] [|? ?]]; try discriminate.
  - intros i j Hi Hj Hn K. apply I2 in Hi, Hj. destruct Hi as (x & y & -> & Hx & Hy), Hj as (x' & y' & -> & Hx' & Hy').
    cbn [reads baddr mz v2] in K. destruct K as [K|K]; [lia|]. apply Hn. assert (x = x' /\ y = y') as (-> & ->) by lia. reflexivity.
  - eexists. split; [vm_compute; reflexivity|reflexivity].
Qed.

Print Assumptions C55_vector_assign.
Print Assumptions C55_matrix_assign.
Print Assumptions C55_tensor_assign.
Print Assumptions C55_defined.
Print Assumptions C56_operators.
Print Assumptions C56_operator_size.
Print Assumptions C56_size.
Print Assumptions C56_vector_compound.
Print Assumptions C56_matrix_compound.
Print Assumptions C56_element_loops_partial.
Print Assumptions C56_element_loops_reject.
Print Assumptions C56_tensor_own_element_refuted.
Print Assumptions C56_bitwise_own_element_refuted.
Print Assumptions C56_vmmul.
