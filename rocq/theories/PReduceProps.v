(** * C72: reductions of distributed views *)
From Coq Require Import List Arith ZArith Lia Bool.
From Verif Require Import Base Reduce ReduceProofs Dist Traversal Map ParAssign DBlock DBlockProofs PReduce PReduceProofs.
Import ListNotations.
Local Open Scope nat_scope.

(** Every processor that reduces an elementwise expression of distributed
    views gets the reduction of the whole view, whatever the maps of its blocks, their
    dimension order, and the order in which the processors proceed. *)
Section C72.
Context {V : Type} (n : nat) (D : nat -> amap) (U : nat -> Prop) (X : nat -> list nat -> V).
Hypothesis maps : forall v, U v -> amap_ok (D v).
Hypothesis procs : forall v, U v -> forall q, In q (a_pvec (D v)) -> q < n.

Theorem C72_sumval (K : CRing) o ext (e : dexpr V K) : order_of o ext -> conforms D U ext e ->
  gives n D U X (d_reduce (Sum_value K) o ext e) (sum_over ext (fun i => element X e i)).
Proof.
  intros O C. apply d_reduce_ok; try assumption.
  exact (sum_lemma K (Sum_value K) (fun x => x) o _ ext (element X e) (fun _ => eq_refl) (fun _ _ => eq_refl) eq_refl O (fun i _ => eq_refl)).
Qed.
Theorem C72_sumsqval (K : CRing) o ext (e : dexpr V K) : order_of o ext -> conforms D U ext e ->
  gives n D U X (d_reduce (Sum_sq_value K) o ext e) (sum_over ext (fun i => rmul (element X e i) (element X e i))).
Proof.
  intros O C. apply d_reduce_ok; try assumption.
  exact (sum_lemma K (Sum_sq_value K) (fun x => rmul x x) o _ ext (element X e) (fun _ => eq_refl) (fun _ _ => eq_refl) eq_refl O (fun i _ => eq_refl)).
Qed.
Theorem C72_sum_of_magsq A (K : CRing) (magsq : A -> K) o ext (e : dexpr V A) : order_of o ext -> conforms D U ext e ->
  gives n D U X (d_reduce (Sum_magsq_value K magsq) o ext e) (sum_over ext (fun i => magsq (element X e i))).
Proof.
  intros O C. apply d_reduce_ok; try assumption.
  exact (sum_lemma K (Sum_magsq_value K magsq) magsq o _ ext (element X e) (fun _ => eq_refl) (fun _ _ => eq_refl) eq_refl O (fun i _ => eq_refl)).
Qed.
(** [divn s m]: the sum [s] divided by the number [m] of elements. *)
Theorem C72_meanval R (K : CRing) (divn : K -> nat -> R) o ext (e : dexpr V K) : order_of o ext -> conforms D U ext e ->
  gives n D U X (d_reduce (Mean_value K divn) o ext e) (divn (sum_over ext (fun i => element X e i)) (fold_right Nat.mul 1 ext)).
Proof.
  intros O C. apply d_reduce_ok; try assumption.
  exact (sum_lemma K (Mean_value K divn) (fun x => x) o _ ext (element X e) (fun _ => eq_refl) (fun _ _ => eq_refl) eq_refl O (fun i _ => eq_refl)).
Qed.
Theorem C72_meansqval A R (K : CRing) (magsq : A -> K) (divn : K -> nat -> R) o ext (e : dexpr V A) : order_of o ext -> conforms D U ext e ->
  gives n D U X (d_reduce (Mean_magsq_value K magsq divn) o ext e) (divn (sum_over ext (fun i => magsq (element X e i))) (fold_right Nat.mul 1 ext)).
Proof.
  intros O C. apply d_reduce_ok; try assumption.
  exact (sum_lemma K (Mean_magsq_value K magsq divn) magsq o _ ext (element X e) (fun _ => eq_refl) (fun _ _ => eq_refl) eq_refl O (fun i _ => eq_refl)).
Qed.
(** The number of true elements. *)
Theorem C72_sumval_bool o ext (e : dexpr V bool) : order_of o ext -> conforms D U ext e ->
  gives n D U X (d_reduce Sum_bool o ext e) (count_true ext (fun i => element X e i)).
Proof. intros O C. apply d_reduce_ok; try assumption. exact (count_lemma o _ ext (element X e) O (fun i _ => eq_refl)). Qed.
(** The logical reductions leave their loops early: all processors do so at the same
    element. *)
Theorem C72_alltrue_bool o ext (e : dexpr V bool) : order_of o ext -> conforms D U ext e ->
  exists r, gives n D U X (d_reduce All_true_bool o ext e) r /\ (r = true <-> forall i, in_ext ext i -> element X e i = true).
Proof.
  intros O C. destruct (all_bool_lemma o _ ext (element X e) O (fun i _ => eq_refl)) as (r & E & P). exists r. split; [|exact P].
  apply d_reduce_ok; assumption.
Qed.
Theorem C72_anytrue_bool o ext (e : dexpr V bool) : order_of o ext -> conforms D U ext e ->
  exists r, gives n D U X (d_reduce Any_true_bool o ext e) r /\ (r = true <-> exists i, in_ext ext i /\ element X e i = true).
Proof.
  intros O C. destruct (any_bool_lemma o _ ext (element X e) O (fun i _ => eq_refl)) as (r & E & P). exists r. split; [|exact P].
  apply d_reduce_ok; assumption.
Qed.
(** Integers: bit by bit.  [ones]: all the bits of the type. *)
Theorem C72_alltrue ones o ext (e : dexpr V Z) : order_of o ext -> conforms D U ext e ->
  exists r, gives n D U X (d_reduce (All_true ones) o ext e) r /\
    forall b, Z.testbit r b = true <-> Z.testbit ones b = true /\ forall i, in_ext ext i -> Z.testbit (element X e i) b = true.
Proof.
  intros O C. destruct (all_true_lemma ones o _ ext (element X e) O (fun i _ => eq_refl)) as (r & E & P). exists r. split; [|exact P].
  apply d_reduce_ok; assumption.
Qed.
Theorem C72_anytrue ones o ext (e : dexpr V Z) : order_of o ext -> conforms D U ext e -> (forall i, in_ext ext i -> Z.lor ones (element X e i) = ones) ->
  exists r, gives n D U X (d_reduce (Any_true ones) o ext e) r /\
    forall b, Z.testbit r b = true <-> exists i, in_ext ext i /\ Z.testbit (element X e i) b = true.
Proof.
  intros O C L. destruct (any_true_lemma ones o _ ext (element X e) O (fun i _ => eq_refl) L) as (r & E & P). exists r. split; [|exact P].
  apply d_reduce_ok; assumption.
Qed.
(** maxval, minval, maxmgval, ...: all processors get the same extremum and the same
    index, that of the first element that attains it. *)
Theorem C72_extremum A K (key : A -> K) (better : K -> K -> bool) o ext (e : dexpr V A) : strict_weak better -> order_of o ext -> Forall (fun m => 0 < m) ext -> conforms D U ext e ->
  exists idx, gives n D U X (d_reduce_idx key better o ext e) (key (element X e idx), idx) /\ in_ext ext idx /\
    (forall i, in_ext ext i -> better (key (element X e i)) (key (element X e idx)) = false) /\
    (forall i, in_ext ext i -> before o i idx -> better (key (element X e idx)) (key (element X e i)) = true).
Proof.
  intros SW O N C. destruct (extremum_lemma key better SW o _ ext (element X e) O N (fun i _ => eq_refl)) as (idx & E & I & P1 & P2).
  exists idx. split; [|auto]. apply d_reduce_idx_ok; assumption.
Qed.
End C72.

(** Block 0: 2 by 3, rows on processors 2 and 0 of three; block 1: 2 by 3, on
    processor 1 alone; block 2: one element everywhere, for the result. *)
Definition ex_maps (v : nat) : amap :=
  match v with
  | 0 => {| a_dims := [(Block 2, 2); (Whole, 3)]; a_pvec := [2;0]; a_rep := false |}
  | 1 => {| a_dims := [(Whole, 2); (Whole, 3)]; a_pvec := [1]; a_rep := false |}
  | _ => {| a_dims := [(Whole, 2)]; a_pvec := [0;1;2]; a_rep := true |}
  end.
(** What the three processors hold: 10*row+column in block 0; 1 in block 1. *)
Definition ex_mem (r v : nat) (l : list nat) : Z :=
  match v with
  | 0 => if r =? 2 then Z.of_nat (nth 1 l 0) else Z.of_nat (10 + nth 1 l 0)
  | 1 => 1%Z
  | _ => 0%Z
  end.
Definition ex_X (v : nat) (g : list nat) : Z := match v with 0 => Z.of_nat (10 * nth 0 g 0 + nth 1 g 0) | 1 => 1%Z | _ => 0%Z end.
Definition ex_expr : dexpr Z Z := Binary Z.mul false (Unary (fun x => x + 1)%Z (Elem 0)) (Binary Z.add true (Elem 1) (Const 2%Z)).
Definition ex_rest (x : Z) : prog Z := Put 2 [1] x Done.
Definition ex_idx : dexpr Z Z := Unary (fun x => - Z.abs (x - 10))%Z (Elem 0).
(** Sum of 3 * (10*row + column + 1): 126; the largest of -|x - 10| is at (1,0). *)
Example C72_ex : (forall v, v < 3 -> amap_ok (ex_maps v)) /\ (forall v, v < 3 -> forall q, In q (a_pvec (ex_maps v)) -> q < 3) /\
  order_of [1;0] [2;3] /\ conforms ex_maps (fun v => v < 3) [2;3] ex_expr /\ (forall r, r < 3 -> holds_of Z ex_maps (fun v => v < 3) ex_X r (ex_mem r)) /\
  sum_over (K := Zring) [2;3] (fun i => element ex_X ex_expr i) = 126%Z /\
  option_map (fun s => map (fun r => mem_ s r 2 [1]) [0;1;2]) (exec Z 3 ex_maps (start Z ex_mem (d_reduce (Sum_value Zring) [1;0] [2;3] ex_expr ex_rest)) (concat (repeat [1;2;0] 30))) = Some [126;126;126]%Z /\
  option_map (fun s => map (fun r => mem_ s r 2 [1]) [0;1;2]) (exec Z 3 ex_maps (start Z ex_mem (d_reduce_idx (fun x => x) Z.gtb [1;0] [2;3] ex_idx
    (fun s => Put 2 [1] (fst s * 100 + Z.of_nat (nth 0 (snd s) 0 * 10 + nth 1 (snd s) 0)%nat)%Z Done))) (concat (repeat [0;1;2] 30))) = Some [10;10;10]%Z.
Proof.
  split; [|split; [|split; [|split; [|split; [|split; [|split]]]]]].
  - intros v Hv. destruct v as [|[|[|v]]]; [| | |lia]; (constructor; [repeat constructor|intros H; first [discriminate H|repeat constructor]|repeat constructor; cbn; intuition lia|cbn; try reflexivity; lia|repeat constructor]).
  - intros v Hv q Hq. destruct v as [|[|[|v]]]; [| | |lia]; cbn in Hq; intuition lia.
  - right. reflexivity.
  - cbn. repeat split; lia.
  - intros r Hr v Hv sb ext l g Hs He Hl Hg. destruct v as [|[|[|v]]]; [| | |lia].
    + destruct r as [|[|[|r]]]; [| | |lia]; vm_compute in Hs; try discriminate Hs; injection Hs as <-; vm_compute in He; injection He as <-;
        apply in_rangeb_iff in Hl; destruct l as [|a [|b [|c l]]]; cbn in Hl; rewrite ?andb_false_r in Hl; try discriminate Hl;
        (destruct a as [|a]; [|discriminate Hl]); destruct b as [|[|[|b]]]; try discriminate Hl; vm_compute in Hg; injection Hg; intros <-; reflexivity.
    + reflexivity.
    + reflexivity.
  - vm_compute. reflexivity.
  - vm_compute. reflexivity.
  - vm_compute. reflexivity.
Qed.

Print Assumptions C72_sumval.
Print Assumptions C72_sumsqval.
Print Assumptions C72_sum_of_magsq.
Print Assumptions C72_meanval.
Print Assumptions C72_meansqval.
Print Assumptions C72_sumval_bool.
Print Assumptions C72_alltrue_bool.
Print Assumptions C72_anytrue_bool.
Print Assumptions C72_alltrue.
Print Assumptions C72_anytrue.
Print Assumptions C72_extremum.
