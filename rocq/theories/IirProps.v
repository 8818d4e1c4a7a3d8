(** C36: the IIR filter. *)
From Coq Require Import ZArith List Lia Bool Arith.
From Verif Require Import Base Iir IirProofs.
Import ListNotations.
Local Open Scope nat_scope.

(** With state saving, the concatenated outputs of any number of calls are
    the response of the cascade of difference equations to the concatenated
    inputs; no access is out of bounds. *)
Theorem C36_pieces_equal_whole (K : CRing) (b a : @matrix K) n f calls : make_iir b a n = Some f ->
  Forall (fun c => length (fst c) = n /\ length (snd c) = n) calls ->
  exists f' r, run true f calls = Some (f', r) /\ cascade b a (flat_map fst calls) (concat r) /\ Forall2 (fun c o => length o = length (fst c)) calls r.
Proof. exact (pieces b a n f calls). Qed.
(** The difference equations determine that response. *)
Theorem C36_response_unique (K : CRing) (b a : @matrix K) x y y' : cascade b a x y -> cascade b a x y' -> y = y'.
Proof. exact (cascade_unique b a x y y'). Qed.
(** Without state saving every call starts from the zero state. *)
Theorem C36_no_save_zero_state (K : CRing) (b a : @matrix K) n f calls : make_iir b a n = Some f ->
  Forall (fun c => length (fst c) = n /\ length (snd c) = n) calls ->
  exists r, run false f calls = Some (f, r) /\ Forall2 (fun c o => cascade b a (fst c) o) calls r.
Proof. exact (no_save b a n f calls). Qed.
(** reset() returns the filter to its initial state. *)
Theorem C36_reset_forgets (K : CRing) (b a : @matrix K) n f calls f1 r1 : make_iir b a n = Some f ->
  Forall (fun c => length (fst c) = n /\ length (snd c) = n) calls -> run true f calls = Some (f1, r1) -> reset f1 = f.
Proof. exact (after_reset b a n f calls f1 r1). Qed.
(** Filtering a vector onto itself gives the same as into another vector,
    in every reachable state. *)
Theorem C36_in_place (K : CRing) (b a : @matrix K) n f calls f1 r1 save v out : make_iir b a n = Some f ->
  Forall (fun c => length (fst c) = n /\ length (snd c) = n) calls -> run true f calls = Some (f1, r1) ->
  length v = n -> length out = n -> filter_in_place save f1 v = filter save f1 v out.
Proof. exact (in_place b a n f calls f1 r1 save v out). Qed.
(** Which filters can be built. *)
Theorem C36_constructible (K : CRing) (b a : @matrix K) n : length b = length a ->
  Forall (fun r => length r = 3) b -> Forall (fun r => length r = 2) a -> exists f, make_iir b a n = Some f.
Proof. exact (make_some b a n). Qed.

(** Two sections, two calls. *)
Example C36_example : exists f f' r, make_iir (K := Zring) [[1;2;3]; [1;0;-1]]%Z [[1;-1]; [0;2]]%Z 3 = Some f /\
  run (K := Zring) true f [([1;0;0]%Z, [9;9;9]%Z); ([0;0;1]%Z, [9;9;9]%Z)] = Some (f', r) /\
  r = [[1;1;0]; [-5;2;6]]%Z /\
  cascade (K := Zring) [[1;2;3]; [1;0;-1]]%Z [[1;-1]; [0;2]]%Z [1;0;0;0;0;1]%Z (concat r).
Proof.
  eexists _, _, _. split; [reflexivity|]. split; [vm_compute; reflexivity|]. split; [reflexivity|].
  destruct (C36_pieces_equal_whole Zring [[1;2;3]; [1;0;-1]]%Z [[1;-1]; [0;2]]%Z 3 _ [([1;0;0]%Z, [9;9;9]%Z); ([0;0;1]%Z, [9;9;9]%Z)] eq_refl) as (f' & r & E & C & _).
  - repeat constructor.
  - vm_compute in E. injection E as _ <-. exact C.
Qed.

Print Assumptions C36_pieces_equal_whole.
Print Assumptions C36_response_unique.
Print Assumptions C36_no_save_zero_state.
Print Assumptions C36_reset_forgets.
Print Assumptions C36_in_place.
Print Assumptions C36_constructible.
