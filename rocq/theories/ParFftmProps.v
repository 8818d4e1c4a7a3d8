From Coq Require Import List Arith Lia Bool.
From Verif Require Import Base Dist Traversal Map ParFftm ParFftmProofs.
Import ListNotations.
Local Open Scope nat_scope.

(** Missing for the full property: maps that divide the transformed
    dimension (see the refutations), other classes of maps, and matrices
    given by expressions.  No processor fails, and every element of the
    output holds its point of the transform of the whole line. *)
Theorem C99_undivided_partial : forall X Y (F : nat -> (nat -> X) -> nat -> Y) k axis lines n mout min
    (x : nat -> list nat -> X) (a : nat -> nat -> X),
  axis < 2 -> local_transform F k -> built mout -> length (u_d mout) = 3 -> NoDup (u_pvec mout) ->
  apply_map mout (sizes axis lines (points_out k n)) <> None ->
  (forall d, nth_error (u_d mout) axis = Some d -> num_subblocks d = 1) ->
  u_d min = u_d mout -> u_pvec min = u_pvec mout ->
  holds min axis lines (points_in k n) x a ->
  exists out,
    fftm_assign F k axis mout (sizes axis lines (points_out k n)) min (sizes axis lines (points_in k n)) x = Some out /\
    (forall pr, out pr <> None) /\
    (forall q p pr l, q < lines -> p < points_out k n ->
       placed mout (sizes axis lines (points_out k n)) (at_ axis q p) pr l ->
       exists g, out pr = Some g /\ g l = Some (F n (a q) p)).
Proof.
  intros X Y F k axis lines n mout min x a H1 H2 H3 H4 H5 H6 H7 H8 H9 H10.
  apply (fftm_ok F k axis lines n mout min x a H1 H2 H3 H4 H5 H6 H7); [|exact H10].
  assert (min = mout) as -> by (destruct min, mout; cbn in *; congruence).
  destruct (proj2 (fftm_maps F k axis mout [] mout [] x)) as (o & E); [auto|].
  unfold fftm_assign in E. destruct (map_eq mout mout); [reflexivity|discriminate].
Qed.

(** The assignment is carried out exactly if the two maps are equal. *)
Theorem C99_carried_out : forall X Y (F : nat -> (nat -> X) -> nat -> Y) k axis mout lout min lin (x : nat -> list nat -> X),
  (exists out, fftm_assign F k axis mout lout min lin x = Some out) <-> u_d min = u_d mout /\ u_pvec min = u_pvec mout.
Proof. exact @fftm_maps. Qed.

(** A stand-in for a transform: point p is the sum of the line plus p. *)
Definition sum_line (c : nat) (x : nat -> nat) (p : nat) : nat := fold_right Nat.add 0 (map x (seq 0 c)) + p.
Definition sum_rc (n : nat) := sum_line n.
Definition sum_cr (n : nat) := sum_line (n / 2 + 1).
Definition by_rows : umap := {| u_d := [Block 2; Whole; Whole]; u_pvec := [4; 7] |}.
Definition by_cols : umap := {| u_d := [Whole; Block 2; Whole]; u_pvec := [4; 7] |}.

(** Three rows of eight points on two processors: 4 has two rows, 7 one;
    real to complex, the results have five columns. *)
Example C99_example :
  local_transform sum_rc RC /\ local_transform sum_cr CR /\ built by_rows /\ built by_cols /\
  apply_map by_rows [3; 5] <> None /\
  placed by_rows [3; 5] [2; 4] 7 [0; 4] /\
  (exists out g, fftm_assign sum_rc RC 1 by_rows [3; 5] by_rows [3; 8]
      (fun pr l => nth 0 l 0 * 10 + nth 1 l 0 + (if pr =? 7 then 20 else 0)) = Some out /\
    out 7 = Some g /\ g [0; 4] = Some (20 + 21 + 22 + 23 + 24 + 25 + 26 + 27 + 4) /\ out 9 <> None) /\
  fftm_assign sum_rc RC 1 by_cols [3; 5] by_rows [3; 8] (fun _ _ => 1) = None /\
  (** Columns, complex to real, the lines divided. *)
  (exists out g, fftm_assign sum_cr CR 0 by_cols [6; 3] by_cols [4; 3] (fun pr l => pr + nth 1 l 0) = Some out /\
    out 4 = Some g /\ g [5; 1] = Some (4 * 5 + 5) /\ g [5; 2] = None).
Proof.
  split. { intros n x y p E. unfold sum_rc, sum_line. f_equal. f_equal. apply map_ext_in. intros q Hq. apply in_seq in Hq. apply E. cbn. lia. }
  split. { intros n x y p E. unfold sum_cr, sum_line. f_equal. f_equal. apply map_ext_in. intros q Hq. apply in_seq in Hq. apply E. cbn [points_in]. lia. }
  split. { split; [repeat constructor|reflexivity]. }
  split. { split; [repeat constructor|reflexivity]. }
  split; [discriminate|]. split.
  { exists [(Block 2, 3); (Whole, 5)], 1, [7]. repeat split. left. reflexivity. }
  split. { eexists _, _. split; [reflexivity|]. split; [vm_compute; reflexivity|]. split; [vm_compute; reflexivity|vm_compute; discriminate]. }
  split; [reflexivity|].
  eexists _, _. split; [reflexivity|]. split; [vm_compute; reflexivity|]. split; vm_compute; reflexivity.
Qed.

(** Defect: a matrix divided along the transforms is accepted although the
    transforms need whole lines (the check that the by-reference form makes
    is commented out): every processor transforms the pieces it holds.  One
    row of four ones on two processors gives two points with the sum 2
    instead of 4. *)
Theorem C99_divided_refuted :
  exists out g, fftm_assign (fun n => sum_line n) CC 1 by_cols [1; 4] by_cols [1; 4] (fun _ _ => 1) = Some out /\
    holds by_cols 1 1 4 (fun _ _ => 1) (fun _ _ => 1) /\
    placed by_cols [1; 4] [0; 0] 4 [0; 0] /\
    out 4 = Some g /\ g [0; 0] = Some 2 /\ sum_line 4 (fun _ => 1) 0 = 4.
Proof.
  eexists _, _. split; [reflexivity|]. split; [intros pr q p l _ _ _; reflexivity|]. split.
  { exists [(Whole, 1); (Block 2, 4)], 0, [4]. repeat split. left. reflexivity. }
  split; [vm_compute; reflexivity|]. split; vm_compute; reflexivity.
Qed.

(** Defect: with a real to complex transform divided in this way a processor
    writes beyond its part of the output.  Eight columns on two processors are
    four each, whose transforms have three points; the five columns of the
    output are three and two. *)
Theorem C99_divided_overrun_refuted : forall F : nat -> (nat -> nat) -> nat -> nat,
  exists out, fftm_assign F RC 1 by_cols [1; 5] by_cols [1; 8] (fun _ _ => 1) = Some out /\
    out 4 <> None /\ out 7 = None.
Proof. intros F. eexists. split; [reflexivity|]. split; [vm_compute; discriminate|vm_compute; reflexivity]. Qed.

Print Assumptions C99_undivided_partial.
Print Assumptions C99_carried_out.
Print Assumptions C99_divided_refuted.
Print Assumptions C99_divided_overrun_refuted.
