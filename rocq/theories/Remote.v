(** * Working on distributed blocks through local data

    Model of dda::Data on a distributed block (remote_access,
    src/ovxx/dda/accessor.hpp 446-537) and of parallel::assign_local
    (src/ovxx/parallel/assign_local.hpp), in the language of ParSeq.v: on
    construction the block is copied to a block replicated on all processors, and that to a
    local block of every processor; the program works on the local block;
    on destruction the local block is copied to a replicated block and that to the
    distributed one.  A local block (Local_map) is treated like one
    replicated on all processors of which every processor uses its own copy.

    Simplification: the program's work on the local data is a function of its elements, the
    same on every processor. *)
From Coq Require Import List Arith ZArith Lia Bool.
From Verif Require Import Base Layout Dist Domain Traversal Map ParAssign ParSeq.
Import ListNotations.
Local Open Scope nat_scope.

Section Model.
Context {V : Type}.
(** One dda::Data object: the distributed block, the local block (lblock_), the
    two replicated blocks (repl of either direction), the bits of its
    synchronization policy and whether the block is modifiable; and the work done between
    construction and destruction, on the elements listed in [ac_idx]. *)
Record access := { ac_block : nat; ac_local : nat; ac_repl_in : nat; ac_repl_out : nat;
                   ac_in : bool; ac_out : bool; ac_modifiable : bool;
                   ac_idx : list (list nat); ac_work : list V -> list V }.

Variables (D : nat -> var) (O : nat -> list nat) (buf : nat).
Definition copy (dst src : nat) : stmt V := {| s_lhs := dst; s_rhs := PVar src; s_temps := [] |}.
(** Assign_local<..., true, false>, assign_local.hpp 50-64: distributed to local. *)
Definition assign_from (l repl b : nat) (r : nat) : option (list (gact V)) := spmd D O buf [copy repl b; copy l repl] r.
(** Assign_local<..., false, true>, 66-81: local to distributed. *)
Definition assign_to (b repl l : nat) (r : nat) : option (list (gact V)) := spmd D O buf [copy repl l; copy b repl] r.
(** assigner::sync_in, accessor.hpp 463: [if (S&in)]. *)
Definition sync_in (a : access) (r : nat) : option (list (gact V)) :=
  if ac_in a then assign_from (ac_local a) (ac_repl_in a) (ac_block a) r else Some [].
(** assigner::sync_out, 464-468; Assign_local_if, assign_local.hpp 84-96. *)
Definition sync_out (a : access) (r : nat) : option (list (gact V)) :=
  if ac_out a then (if ac_modifiable a then assign_to (ac_block a) (ac_repl_out a) (ac_local a) r else Some []) else Some [].
(** The constructor (495-502), the work, the destructor (members in reverse order:
    assigner_, 458-462). *)
Definition access_program (a : access) (r : nat) : option (list (gact V)) :=
  i <- sync_in a r ;;
  o <- sync_out a r ;;
  Some (i ++ [GWork (ac_local a) (map (off (v_st (D (ac_local a)) r)) (ac_idx a)) (ac_work a)] ++ o).

(** A program of statements and of such accesses. *)
Inductive item := IStmt (s : stmt V) | IAccess (a : access).
Definition item_program (i : item) (r : nat) : option (list (gact V)) :=
  match i with IStmt s => stmt_program D O buf s r | IAccess a => access_program a r end.
Definition items_program (is : list item) (r : nat) : option (list (gact V)) := collectL is (fun i => item_program i r).
End Model.
Arguments access : clear implicits.
Arguments item : clear implicits.

(** accessor.hpp 497: [storage_(b.size(), buffer)]: the number of elements allocated. *)
Definition remote_storage (ext : list Z) : Z := fold_right Z.mul 1%Z ext.
(** 488-492: required_buffer_size. *)
Definition required_buffer_size (l : applied) : Z := total_size l.

(** * Specification *)
Section Spec.
Context {V : Type}.
(** [g]'s value in a list of pairs. *)
Fixpoint lookup (l : list (list nat * V)) (g : list nat) (d : V) : V :=
  match l with
  | [] => d
  | (h, x) :: r => if list_eq_dec Nat.eq_dec h g then x else lookup r g d
  end.
(** What one processor with ordinary arrays does: the work gets the elements of
    the block and leaves its results in the local array; if the access is
    for output they replace the elements of the block. *)
Definition run_item (X : nat -> list nat -> V) (i : item V) : nat -> list nat -> V :=
  match i with
  | IStmt s => run_stmt X s
  | IAccess a => fun v g =>
      if (v =? ac_local a) || (ac_out a && ac_modifiable a && (v =? ac_block a))
      then lookup (combine (ac_idx a) (ac_work a (map (X (ac_block a)) (ac_idx a)))) g (X v g)
      else X v g
  end.
Definition run_items (X : nat -> list nat -> V) (is : list (item V)) : nat -> list nat -> V := fold_left run_item is X.

(** A map that puts a copy of a block of sizes [ext] on each of [n] processors. *)
Definition everywhere (n : nat) (ext : list nat) : amap := {| a_dims := map (fun e => (Whole, e)) ext; a_pvec := seq 0 n; a_rep := true |}.
(** The blocks are different and have the sizes of the distributed one, which has
    values if they are read; the replicated ones are used for nothing
    else; the work replaces the elements, each listed once; without input it does not depend on
    what it finds. *)
Record access_ok (n : nat) (D : nat -> var) (U : nat -> Prop) (I : list nat) (a : access V) : Prop := {
  ao_used : U (ac_block a) /\ U (ac_local a) /\ U (ac_repl_in a) /\ U (ac_repl_out a);
  ao_differ : NoDup [ac_block a; ac_local a; ac_repl_in a; ac_repl_out a];
  ao_fresh : ~ In (ac_repl_in a) I /\ ~ In (ac_repl_out a) I;
  ao_value : ac_in a = true -> In (ac_block a) I;
  ao_maps : forall v, In v [ac_local a; ac_repl_in a; ac_repl_out a] -> v_map (D v) = everywhere n (a_ext (v_map (D (ac_block a))));
  ao_idx : NoDup (ac_idx a) /\ forall g, In g (ac_idx a) <-> in_range (a_ext (v_map (D (ac_block a)))) g;
  ao_len : forall x, length x = length (ac_idx a) -> length (ac_work a x) = length (ac_idx a);
  ao_noin : ac_in a = false -> forall x y, length x = length (ac_idx a) -> length y = length (ac_idx a) -> ac_work a x = ac_work a y
}.
(** The blocks that have values after an item. *)
Definition outputs (i : item V) : list nat :=
  match i with
  | IStmt s => [s_lhs s]
  | IAccess a => ac_local a :: if ac_out a && ac_modifiable a then [ac_block a] else []
  end.
Inductive items_ok (n : nat) (D : nat -> var) (O : nat -> list nat) (U : nat -> Prop) : list nat -> list (item V) -> Prop :=
| io_nil I : items_ok n D O U I []
| io_stmt I s is : stmt_ok n D O U I s -> items_ok n D O U (outputs (IStmt s) ++ I) is -> items_ok n D O U I (IStmt s :: is)
| io_access I a is : access_ok n D U I a -> items_ok n D O U (outputs (IAccess a) ++ I) is -> items_ok n D O U I (IAccess a :: is).
End Spec.
