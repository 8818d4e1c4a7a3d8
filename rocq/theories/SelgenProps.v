(** C31, C32: selection, ramps, clipping, swap. *)
From Coq Require Import ZArith List Lia Bool Arith.
From Verif Require Import Base Layout LayoutProofs Selgen SelgenProofs.
Import ListNotations.
Local Open Scope nat_scope.

(** * C31: selection *)
(** indexbool returns the number of true elements, whatever the length of
    the index vector, and stores as many of their positions as fit. *)
Theorem C31_indexbool_vector source indices : exists out,
  indexbool1 source indices = Some (length (true_positions source), out) /\ overwritten indices (true_positions source) out.
Proof. exact (indexbool1_ok source indices). Qed.
Theorem C31_indexbool_matrix rows cols get v indices : (forall r c, r < rows -> c < cols -> get r c = Some (v r c)) ->
  exists out, indexbool2 rows cols get indices = Some (length (true_positions2 rows cols v), out) /\ overwritten indices (true_positions2 rows cols v) out.
Proof. exact (indexbool2_ok rows cols get v indices). Qed.
Example C31_indexbool_example :
  indexbool1 [true; false; true; true] [9; 9] = Some (3, [0; 2]) /\ indexbool1 [true; false; true; true] [9; 9; 9; 9] = Some (3, [0; 2; 3; 9]) /\
  indexbool2 2 2 (fun r c => Some (negb (r =? c))) [(9, 9); (9, 9); (9, 9)] = Some (2, [(0, 1); (1, 0); (9, 9)]).
Proof. repeat split; reflexivity. Qed.

Theorem C31_first A B begin (p : A -> B -> bool) v w : length v = length w -> begin <= length v ->
  exists r, first begin p v w = Some r /\ begin <= r <= length v /\
    (forall k x y, begin <= k < r -> nth_error v k = Some x -> nth_error w k = Some y -> p x y = false) /\
    (r < length v -> exists x y, nth_error v r = Some x /\ nth_error w r = Some y /\ p x y = true).
Proof. exact (first_ok begin p v w). Qed.
Theorem C31_first_past_the_end A B begin (p : A -> B -> bool) v w : length v = length w -> length v < begin -> first begin p v w = Some begin.
Proof. intros E H. unfold first. rewrite (proj2 (Nat.eqb_eq _ _) E), (proj2 (Nat.ltb_lt _ _) H). reflexivity. Qed.
Example C31_first_example : first 1 Nat.ltb [0; 5; 2; 1] [9; 5; 3; 9] = Some 2 /\ first 3 Nat.ltb [0; 5; 2; 1] [9; 5; 3; 0] = Some 4.
Proof. split; reflexivity. Qed.

Theorem C31_gather A (source : view A) indices w : (forall k i, nth_error indices k = Some i -> source i = Some (w k)) ->
  gather source indices = Some (map (fun k => Some (w k)) (seq 0 (length indices))).
Proof. exact (gather_ok source indices w). Qed.
(** Elements no index names keep their value; where an index is named more
    than once the last one wins. *)
Theorem C31_scatter A (source : list A) indices destination : length indices <= length source -> (forall i, In i indices -> destination i <> None) ->
  exists d, scatter source indices destination = Some d /\
    (forall j, ~ In j indices -> d j = destination j) /\
    (forall k j, nth_error indices k = Some j -> (forall k', k < k' -> nth_error indices k' <> Some j) -> d j = nth_error source k).
Proof. exact (scatter_ok source indices destination). Qed.
Theorem C31_gather_after_scatter A (source : list A) indices destination :
  length indices = length source -> NoDup indices -> (forall i, In i indices -> destination i <> None) ->
  exists d, scatter source indices destination = Some d /\ gather d indices = Some (map Some source).
Proof. exact (gather_scatter source indices destination). Qed.
Example C31_scatter_example : exists d, scatter [7; 8] [[1; 0]; [0; 1]] (fun i => if Forall_dec (fun x => x < 2) (fun x => lt_dec x 2) i then Some 0 else None) = Some d /\
  d [1; 0] = Some 7 /\ d [0; 1] = Some 8 /\ d [1; 1] = Some 0 /\ d [2; 1] = None /\ NoDup [[1; 0]; [0; 1]].
Proof. eexists. split; [reflexivity|]. repeat split; try reflexivity. repeat constructor; cbn; intuition discriminate. Qed.

(** * C32: ramp, clip, invclip, swap *)
(** ramp starts with [a] and grows by [b] from each element to the next. *)
Theorem C32_ramp (K : CRing) (a b : K) len : 0 < len -> exists v, ramp a b len = Some v /\
  v 0 = Some a /\ (forall i, i + 1 < len -> exists x, v i = Some x /\ v (i + 1) = Some (radd x b)) /\ (forall i, len <= i -> v i = None).
Proof. exact (ramp_ok K a b len). Qed.
Example C32_ramp_example : exists v, ramp (K := Zring) 5%Z (-2)%Z 4 = Some v /\ map v [0; 1; 3; 4] = [Some 5; Some 3; Some (-1); None]%Z.
Proof. eexists. split; reflexivity. Qed.

(** The three ranges of clip; elements stay in their place. *)
Theorem C32_clip v lo hi lval uval i t : v i = Some t -> (lo < hi)%Z ->
  exists r, clip v lo hi lval uval i = Some r /\ ((t <= lo)%Z -> r = lval) /\ ((lo < t < hi)%Z -> r = t) /\ ((hi <= t)%Z -> r = uval).
Proof.
  intros E H. unfold clip. rewrite E. cbn [bind]. eexists. split; [reflexivity|]. unfold clip_functor.
  destruct (Z.leb_spec t lo), (Z.ltb_spec t hi); repeat split; intros; lia.
Qed.
(** With the thresholds as clip values, clip is the projection onto [lo, hi]. *)
Theorem C32_clip_saturates v lo hi i t : v i = Some t -> (lo <= hi)%Z -> clip v lo hi lo hi i = Some (Z.max lo (Z.min t hi)).
Proof. intros E H. unfold clip. rewrite E. cbn [bind]. f_equal. unfold clip_functor. destruct (Z.leb_spec t lo), (Z.ltb_spec t hi); lia. Qed.
Theorem C32_invclip v lo mid hi lval uval i t : v i = Some t -> (lo <= mid <= hi)%Z ->
  exists r, invclip v lo mid hi lval uval i = Some r /\ ((t < lo \/ hi < t)%Z -> r = t) /\ ((lo <= t < mid)%Z -> r = lval) /\ ((mid <= t <= hi)%Z -> r = uval).
Proof.
  intros E H. unfold invclip. rewrite E. cbn [bind]. eexists. split; [reflexivity|]. unfold invclip_functor.
  destruct (Z.ltb_spec t lo), (Z.ltb_spec t mid), (Z.leb_spec t hi); repeat split; intros; lia.
Qed.
(** With the thresholds as clip values no value strictly inside is left. *)
Theorem C32_invclip_excludes v lo mid hi i t : v i = Some t -> (lo <= mid <= hi)%Z ->
  exists r, invclip v lo mid hi lo hi i = Some r /\ ~ (lo < r < hi)%Z.
Proof.
  intros E H. unfold invclip. rewrite E. cbn [bind]. eexists. split; [reflexivity|]. unfold invclip_functor.
  destruct (Z.ltb_spec t lo), (Z.ltb_spec t mid), (Z.leb_spec t hi); lia.
Qed.
Example C32_clip_example : map (clip (fun i => nth_error [-5; 1; 2; 3; 9]%Z (hd 0 i)) 1 3 (-1) 7) [[0]; [1]; [2]; [3]; [4]; [5]] = [Some (-1); Some (-1); Some 2; Some 7; Some 7; None]%Z /\
  map (invclip (fun i => nth_error [-5; 1; 2; 3; 9]%Z (hd 0 i)) 1 2 3 (-1) 7) [[0]; [1]; [2]; [3]; [4]] = [Some (-5); Some (-1); Some 7; Some 7; Some 9]%Z.
Proof. split; reflexivity. Qed.

(** swap exchanges the contents of two dense blocks of the same extent and
    dimension order; twice is the identity. *)
Theorem C32_swap A o e l (c1 c2 : list A) : pos_ext e -> make_layout o P_dense e = Some l ->
  Z.of_nat (length c1) = total_size l -> Z.of_nat (length c2) = total_size l ->
  let b1 := {| lay := l; ext := e; cells := c1 |} in let b2 := {| lay := l; ext := e; cells := c2 |} in
  swap b1 b2 = Some (b2, b1) /\ (r <- swap b1 b2 ;; swap (fst r) (snd r)) = Some (b1, b2).
Proof.
  intros P M L1 L2 b1 b2. pose proof (swap_elements o e l c1 c2 P M L1 L2) as E1. pose proof (swap_elements o e l c2 c1 P M L2 L1) as E2.
  cbn zeta in E1, E2. unfold b1, b2. rewrite E1. cbn [bind fst snd]. split; [reflexivity|exact E2].
Qed.
Example C32_swap_example : exists l, make_layout [1;0] P_dense [2;3]%Z = Some l /\ pos_ext [2;3]%Z /\ total_size l = 6%Z /\
  let b1 := {| lay := l; ext := [2;3]%Z; cells := [1;2;3;4;5;6] |} in let b2 := {| lay := l; ext := [2;3]%Z; cells := [7;8;9;10;11;12] |} in
  element b1 [1;2]%Z = Some 6 /\ (r <- swap b1 b2 ;; element (fst r) [0;1]%Z) = element b2 [0;1]%Z.
Proof. eexists. split; [reflexivity|]. split; [repeat constructor; lia|]. split; [reflexivity|]. split; reflexivity. Qed.
(** Views of different dimension orders: cells are exchanged, not elements. *)
Theorem C32_swap_orders_refuted : exists (b1 b2 r1 r2 : block nat),
  make_layout [0;1] P_dense [2;3]%Z = Some (lay b1) /\ make_layout [1;0] P_dense [2;3]%Z = Some (lay b2) /\ ext b1 = [2;3]%Z /\ ext b2 = [2;3]%Z /\
  length (cells b1) = 6 /\ length (cells b2) = 6 /\
  swap b1 b2 = Some (r1, r2) /\ element r1 [0;1]%Z <> element b2 [0;1]%Z.
Proof.
  exists {| lay := A2row 2 3; ext := [2;3]%Z; cells := [1;2;3;4;5;6] |}, {| lay := A2col 2 3; ext := [2;3]%Z; cells := [7;8;9;10;11;12] |}. eexists _, _.
  do 6 (split; [reflexivity|]). split; [reflexivity|]. vm_compute. discriminate.
Qed.
(** Padded blocks: the last elements are not exchanged. *)
Theorem C32_swap_padded_refuted : exists (b1 b2 r1 r2 : block nat),
  make_layout [0;1] (P_aligned 8) [2;3]%Z = Some (lay b1) /\ lay b2 = lay b1 /\ ext b1 = [2;3]%Z /\ ext b2 = [2;3]%Z /\
  Z.of_nat (length (cells b1)) = total_size (lay b1) /\ Z.of_nat (length (cells b2)) = total_size (lay b1) /\
  swap b1 b2 = Some (r1, r2) /\ element r1 [1;0]%Z <> element b2 [1;0]%Z.
Proof.
  exists {| lay := A2rowA 2 3 8; ext := [2;3]%Z; cells := repeat 1 11 |}, {| lay := A2rowA 2 3 8; ext := [2;3]%Z; cells := repeat 2 11 |}. eexists _, _.
  do 6 (split; [reflexivity|]). split; [reflexivity|]. vm_compute. discriminate.
Qed.

Print Assumptions C31_indexbool_vector.
Print Assumptions C31_indexbool_matrix.
Print Assumptions C31_first.
Print Assumptions C31_first_past_the_end.
Print Assumptions C31_gather.
Print Assumptions C31_scatter.
Print Assumptions C31_gather_after_scatter.
Print Assumptions C32_ramp.
Print Assumptions C32_clip.
Print Assumptions C32_clip_saturates.
Print Assumptions C32_invclip.
Print Assumptions C32_invclip_excludes.
Print Assumptions C32_swap.
Print Assumptions C32_swap_orders_refuted.
Print Assumptions C32_swap_padded_refuted.
