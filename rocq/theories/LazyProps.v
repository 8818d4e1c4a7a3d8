(** C77: views returned by value.  The vocabulary is the specification
    part of Lazy.v: [meaning m e i] is element [i] of the expression when
    every operand is taken from the memory [m]. *)
From Coq Require Import ZArith List Bool Arith Lia.
From Verif Require Import Base Lazy LazyProofs.
Import ListNotations.

(** [lhs = expression]: whatever by-value operations the expression
    contains, nested or not, evaluated ahead or not, the destination
    receives what the expression meant before the assignment and nothing
    else is written.  The operands of the by-value operations may overlap
    the destination in any way ([v = fft(v)]); elementwise operands may
    overlap it only in place. *)
Theorem C77_assign : forall {I T} (lhs : I -> Z) order (e : expr I T) w s,
  NoDup order ->
  (forall i j, In i order -> In j order -> lhs i = lhs j -> i = j) ->
  new_expr e s -> usable w e -> readable (mem w) e ->
  (forall i, In i order -> meaning (mem w) e i <> None) ->
  aligned lhs order e ->
  exists w' s', assign lhs order e w s = Some (w', s') /\
    (forall i, In i order -> mem w' (lhs i) = meaning (mem w) e i) /\
    (forall a, (forall i, In i order -> lhs i <> a) -> mem w' a = mem w a).
Proof. exact (fun I T => assign_ok). Qed.

(** While nothing else changes, reading any elements of a new expression
    in any order, any number of times, gives what it means. *)
Theorem C77_reads : forall {I T} (w : world T) (e : expr I T) s l vs,
  new_expr e s -> usable w e -> values (meaning (mem w) e) l = Some vs ->
  run w e s (map Read l) = Some vs.
Proof. exact (fun I T => run_same). Qed.

(** The view returned by a by-value operation, once one element has been
    read, keeps its values for good: every later read of it or of a copy
    of it gives what the operation meant at the first read, whatever is
    written or freed and even when the by-value object is destroyed. *)
Theorem C77_kept : forall {I T} (w : world T) o dom F d (a : expr I T) k s i l,
  let e := Op o dom F d a k in
  new_expr e s -> usable w e -> values (meaning (mem w) a) dom <> None ->
  no_local l ->
  exists vs, run w e s (Read i :: l) = Some vs /\
    map Some vs = map (meaning (mem w) e) (i :: reads l).
Proof. exact (fun I T => run_first). Qed.

(** A copy of a view reads as the view itself would have. *)
Theorem C77_copy : forall {I T} n (l : list (event I T)) (w : world T) (e : expr I T) s,
  only_reads l -> run w e s (Copy n :: l) = run w e s l.
Proof. exact (fun I T => run_copy). Qed.

(** ** A transform of two elements: the sum and the difference. *)
Definition two (vs : list Z) (i : Z) : Z :=
  match vs with
  | [a; b] => if Z.eqb i 0 then (a + b)%Z else (a - b)%Z
  | _ => 0%Z
  end.
Definition x_ : expr Z Z := Leaf (fun i => i).
Definition y_ : expr Z Z := Op 0 [0%Z; 1%Z] two true x_ 0.
Definition memo (p q : Z) : Z -> option Z :=
  fun a => if Z.eqb a 0 then Some p else if Z.eqb a 1 then Some q else None.
Definition here (p q : Z) : world Z := {| mem := memo p q; live := fun _ => true |}.
Definition empty : @store Z Z := fun _ => None.

(** [v = v * fft(fft(v))], the transforms not evaluated ahead. *)
Definition e_ : expr Z Z :=
  Bin Z.mul false x_ false (Op 1 [0%Z; 1%Z] two false y_ 1).

Example C77_assign_ex :
  (new_expr e_ empty /\ usable (here 3 5) e_ /\ readable (mem (here 3 5)) e_ /\
   aligned (fun i => i) [0%Z; 1%Z] e_) /\
  (forall i, In i [0%Z; 1%Z] -> meaning (mem (here 3 5)) e_ i <> None) /\
  exists w' s', assign (fun i => i) [0%Z; 1%Z] e_ (here 3 5) empty = Some (w', s') /\
    mem w' 0%Z = Some 18%Z /\ mem w' 1%Z = Some 50%Z.
Proof.
  split; [|split].
  - split; [split|split; [|split]].
    + repeat constructor; cbn; intuition discriminate.
    + reflexivity.
    + intros o _. reflexivity.
    + cbn. repeat split; discriminate.
    + intros i j Hi Hj H. cbn in H. intuition.
  - intros i [<- |[<- |[]]]; cbn; discriminate.
  - eexists. eexists. split; [reflexivity|]. split; reflexivity.
Qed.

Example C77_in_place_ex : (* v = fft(v) *)
  exists w' s', assign (fun i => i) [0%Z; 1%Z] y_ (here 3 5) empty = Some (w', s') /\
    mem w' 0%Z = Some 8%Z /\ mem w' 1%Z = Some (-2)%Z.
Proof. eexists. eexists. split; [reflexivity|]. split; reflexivity. Qed.

Example C77_reads_ex :
  run (here 3 5) e_ empty (map Read [1%Z; 0%Z; 1%Z]) = Some [50%Z; 18%Z; 50%Z].
Proof. reflexivity. Qed.

Example C77_kept_ex :
  (new_expr y_ empty /\ usable (here 3 5) y_ /\
   values (meaning (mem (here 3 5)) x_) [0%Z; 1%Z] <> None) /\
  run (here 3 5) y_ empty
    [Read 0%Z; Change {| mem := fun _ => None; live := fun _ => false |}; Copy 4; Read 1%Z]
  = Some [8%Z; (-2)%Z].
Proof.
  split; [|reflexivity]. split; [split|split].
  - repeat constructor; cbn; intuition.
  - reflexivity.
  - intros o _. reflexivity.
  - discriminate.
Qed.

Example C77_copy_ex :
  run (here 3 5) y_ empty [Copy 4; Read 0%Z; Change (here 1 1); Read 1%Z]
  = Some [8%Z; (-2)%Z].
Proof. reflexivity. Qed.

(** The view returned by a by-value transform does not hold the
    transform of the input at the call: when the input is overwritten
    before the view is first read, the view holds the transform of the
    new input. *)
Theorem C77_snapshot_refuted :
  ~ (forall (w w' : world Z) (e : expr Z Z) s i v,
       new_expr e s -> usable w e -> usable w' e ->
       readable (mem w) e -> readable (mem w') e ->
       meaning (mem w) e i = Some v ->
       (exists o dom F d a k, e = Op o dom F d a k) ->
       run w e s [Change w'; Read i] = Some [v]).
Proof.
  intro H.
  assert (X : run (here 3 5) y_ empty [Change (here 1 1); Read 0%Z] = Some [8%Z]).
  { apply H; try reflexivity; try (intros o _; reflexivity); try (cbn; split; [trivial|discriminate]).
    - split; [|reflexivity]. repeat constructor; cbn; intuition.
    - do 6 eexists. reflexivity. }
  discriminate X.
Qed.

(** An expression with a by-value operation can show a mixture: after
    one element of [x + fft(x)] has been read and [x] overwritten,
    reading gives neither what the expression meant before nor what it
    means now, because the transform is the old one and the elementwise
    operand the new one. *)
Theorem C77_mixture_refuted :
  ~ (forall (w w' : world Z) (e : expr Z Z) s i j vs,
       new_expr e s -> usable w e -> usable w' e ->
       readable (mem w) e -> readable (mem w') e ->
       run w e s [Read i; Change w'; Read j] = Some vs ->
       exists u v, vs = [u; v] /\
         (Some v = meaning (mem w) e j \/ Some v = meaning (mem w') e j)).
Proof.
  intro H.
  destruct (H (here 3 5) (here 1 1) (Bin Z.add true x_ true y_) empty 0%Z 0%Z [11%Z; 9%Z])
    as (u & v & E & D);
    try reflexivity; try (intros o _; reflexivity).
  - split; [|reflexivity]. repeat constructor; cbn; intuition.
  - cbn. repeat split; discriminate.
  - cbn. repeat split; discriminate.
  - injection E as <- <-. destruct D; discriminate.
Qed.

(** Two copies of one view may hold different values: a copy taken
    before the first read is evaluated separately, so that overwriting
    the input between the first reads makes them differ. *)
Theorem C77_copies_refuted :
  ~ (forall (w w' : world Z) (e : expr Z Z) s n i u s1 v s2,
       new_expr e s -> usable w e -> usable w' e ->
       readable (mem w) e -> readable (mem w') e ->
       (exists o dom F d a k, e = Op o dom F d a k) ->
       (forall k, In k (nodes e) -> k < n) ->
       get w e i (copy_store n s) = Some (u, s1) ->
       get w' (copy_expr n e) i s1 = Some (v, s2) ->
       u = v).
Proof.
  intro H.
  assert (X : 8%Z = 2%Z).
  { eapply (H (here 3 5) (here 1 1) y_ empty 4 0%Z);
      try reflexivity; try (intros o _; reflexivity);
      try (cbn; split; [trivial|discriminate]).
    - split; [|reflexivity]. repeat constructor; cbn; intuition.
    - do 6 eexists. reflexivity.
    - intros k [<- |[]]. lia. }
  discriminate X.
Qed.

(** The view returned by a by-value transform cannot be read after the
    transform object is gone, unless it was read before. *)
Theorem C77_lifetime_refuted :
  ~ (forall (w w' : world Z) (e : expr Z Z) s i v,
       new_expr e s -> usable w e ->
       (forall a, mem w' a = mem w a) ->
       readable (mem w) e ->
       meaning (mem w) e i = Some v ->
       run w e s [Change w'; Read i] = Some [v]).
Proof.
  intro H.
  assert (X : run (here 3 5) y_ empty
                [Change {| mem := memo 3 5; live := fun _ => false |}; Read 0%Z]
              = Some [8%Z]).
  { apply H; try reflexivity; try (intros o _; reflexivity);
      try (cbn; split; [trivial|discriminate]).
    split; [|reflexivity]. repeat constructor; cbn; intuition. }
  discriminate X.
Qed.

(** The local view of a view that has been read does not hold the same
    values: it is evaluated again, from what the input holds then. *)
Theorem C77_local_refuted :
  ~ (forall (w w' : world Z) (e : expr Z Z) s n i u v,
       new_expr e s -> usable w e -> usable w' e ->
       readable (mem w) e -> readable (mem w') e ->
       (exists o dom F d a k, e = Op o dom F d a k) ->
       run w e s [Read i; Change w'; Local n; Read i] = Some [u; v] ->
       u = v).
Proof.
  intro H.
  assert (X : 8%Z = 2%Z).
  { apply (H (here 3 5) (here 1 1) y_ empty 4 0%Z);
      try reflexivity; try (intros o _; reflexivity);
      try (cbn; split; [trivial|discriminate]).
    - split; [|reflexivity]. repeat constructor; cbn; intuition.
    - do 6 eexists. reflexivity. }
  discriminate X.
Qed.

(** Elementwise operands that overlap the destination out of place are
    read after they have been overwritten, although by-value operands
    in the same expression are not: [v(0,1) = v(1,0) + fft(v)]. *)
Theorem C77_overlap_refuted :
  ~ (forall (lhs : Z -> Z) order (e : expr Z Z) w s w' s' i,
       NoDup order ->
       (forall i j, In i order -> In j order -> lhs i = lhs j -> i = j) ->
       new_expr e s -> usable w e -> readable (mem w) e ->
       (forall i, In i order -> meaning (mem w) e i <> None) ->
       assign lhs order e w s = Some (w', s') ->
       In i order -> mem w' (lhs i) = meaning (mem w) e i).
Proof.
  intro H.
  set (e := Bin Z.add true (Leaf (fun i => 1 - i)%Z) true y_).
  destruct (assign (fun i => i) [0%Z; 1%Z] e (here 3 5) empty) as [[w' s']|] eqn:E;
    [|discriminate E].
  assert (Y : mem w' 1%Z = Some 11%Z) by (injection E as <- <-; reflexivity).
  cut (mem w' 1%Z = Some 1%Z); [rewrite Y; discriminate|].
  apply (H (fun i => i) [0%Z; 1%Z] e (here 3 5) empty w' s' 1%Z); auto; try (intros o _; reflexivity).
  - repeat constructor; cbn; intuition discriminate.
  - split; [|reflexivity]. repeat constructor; cbn; intuition.
  - cbn. repeat split; discriminate.
  - intros i [<- |[<- |[]]]; cbn; discriminate.
  - cbn. auto.
Qed.

Print Assumptions C77_assign.
Print Assumptions C77_reads.
Print Assumptions C77_kept.
Print Assumptions C77_copy.
Print Assumptions C77_snapshot_refuted.
Print Assumptions C77_mixture_refuted.
Print Assumptions C77_copies_refuted.
Print Assumptions C77_lifetime_refuted.
Print Assumptions C77_local_refuted.
Print Assumptions C77_overlap_refuted.
