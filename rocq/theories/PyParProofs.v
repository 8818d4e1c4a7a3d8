From Coq Require Import String List ZArith Bool Lia.
From Verif Require Import PyLang PyProg PyCalls PyCallsProofs PyPar.
Import ListNotations.
Local Open Scope string_scope.
Local Open Scope Z_scope.

Ltac prun := unfold pcall, one_call, map_object, distributed; run_py; follow.
Ltac ptypes H := cbn [denotes] in H; repeat (destruct H as [H | H]); try contradiction; subst.
Ltac each4 H := unfold offered in H; repeat (destruct H as [H | H]); subst.

Lemma vector_plain : forall W ld k t d n m, offered d -> denotes t d -> 0 <= n ->
  pcall W ld k "block" [VType t; VTuple [VInt n]; map_object m] =
  one_call W "block1" [("l", VInt n); ("m", map_object m)] (VObj "block1" d k).
Proof. intros W ld k t d n m H4 Ht Hn. each4 H4; ptypes Ht; prun. Qed.

Lemma matrix_plain : forall W ld k t d r c m, offered d -> denotes t d -> 0 <= r -> 0 <= c ->
  pcall W ld k "block" [VType t; VTuple [VInt r; VInt c]; map_object m] =
  one_call W "block2" [("r", VInt r); ("c", VInt c); ("m", map_object m)] (VObj "block2" d k).
Proof. intros W ld k t d r c m H4 Ht Hr Hc. each4 H4; ptypes Ht; prun. Qed.

Lemma vector_float : forall W ld k t d n x m, offered d -> d <> I32 -> denotes t d -> 0 <= n -> x <> 0 ->
  pcall W ld k "block" [VType t; VTuple [VInt n]; VNum x; map_object m] =
  one_call W "block1_init" [("l", VInt n); ("value", VNum x); ("m", map_object m)] (VObj "block1" d k).
Proof. intros W ld k t d n x m H4 H5 Ht Hn Hx. destruct x as [|p|p]; [contradiction Hx; reflexivity| |]; each4 H4; try contradiction; ptypes Ht; prun. Qed.

Lemma matrix_float : forall W ld k t d r c x m, offered d -> d <> I32 -> denotes t d -> 0 <= r -> 0 <= c -> x <> 0 ->
  pcall W ld k "block" [VType t; VTuple [VInt r; VInt c]; VNum x; map_object m] =
  one_call W "block2_init" [("r", VInt r); ("c", VInt c); ("value", VNum x); ("m", map_object m)] (VObj "block2" d k).
Proof. intros W ld k t d r c x m H4 H5 Ht Hr Hc Hx. destruct x as [|p|p]; [contradiction Hx; reflexivity| |]; each4 H4; try contradiction; ptypes Ht; prun. Qed.

Lemma vector_cplx : forall W ld k t n x m, denotes t C64 -> 0 <= n -> x <> 0 ->
  pcall W ld k "block" [VType t; VTuple [VInt n]; VCplx x; map_object m] =
  one_call W "block1_init" [("l", VInt n); ("value", VCplx x); ("m", map_object m)] (VObj "block1" C64 k).
Proof. intros W ld k t n x m Ht Hn Hx. destruct x as [|p|p]; [contradiction Hx; reflexivity| |]; ptypes Ht; prun. Qed.
Lemma matrix_cplx : forall W ld k t r c x m, denotes t C64 -> 0 <= r -> 0 <= c -> x <> 0 ->
  pcall W ld k "block" [VType t; VTuple [VInt r; VInt c]; VCplx x; map_object m] =
  one_call W "block2_init" [("r", VInt r); ("c", VInt c); ("value", VCplx x); ("m", map_object m)] (VObj "block2" C64 k).
Proof. intros W ld k t r c x m Ht Hr Hc Hx. destruct x as [|p|p]; [contradiction Hx; reflexivity| |]; ptypes Ht; prun. Qed.

Lemma unfit_raises : forall W ld k t d v m, offered d -> denotes t d -> unfit d v ->
  (forall n, pcall W ld k "block" [VType t; VTuple [VInt n]; v; map_object m] = Raises "ArgumentError" []) /\
  (forall r c, pcall W ld k "block" [VType t; VTuple [VInt r; VInt c]; v; map_object m] = Raises "ArgumentError" []).
Proof.
  intros W ld k t d v m H4 Ht [(x & Hx & -> & ->) | (x & Hx & -> & Hd)];
    [| repeat (destruct Hd as [-> | Hd]; [| subst])]; (destruct x as [|p|p]; [contradiction Hx; reflexivity| |]); ptypes Ht;
    split; intros; prun.
Qed.

Lemma matrix_int : forall W ld k t d r c x m, offered d -> denotes t d -> 0 <= r -> 0 <= c -> x <> 0 -> -2147483648 <= x < 2147483648 ->
  pcall W ld k "block" [VType t; VTuple [VInt r; VInt c]; VInt x; map_object m] =
  one_call W "block2_init" [("r", VInt r); ("c", VInt c); ("value", VInt x); ("m", map_object m)] (VObj "block2" d k).
Proof. intros W ld k t d r c x m H4 Ht Hr Hc Hx Hb. destruct x as [|p|p]; [contradiction Hx; reflexivity| |]; each4 H4; try contradiction; ptypes Ht; prun. Qed.

Lemma vector_int : forall W ld k t d n x m, offered d -> denotes t d -> 0 <= n -> 0 < x ->
  pcall W ld k "block" [VType t; VTuple [VInt n]; VInt x; map_object m] =
  one_call W "block2" [("r", VInt n); ("c", VInt x); ("m", map_object m)] (VObj "block2" d k).
Proof. intros W ld k t d n x m H4 Ht Hr Hx. destruct x as [|p|p]; [lia| |lia]; each4 H4; try contradiction; ptypes Ht; prun. Qed.
Lemma vector_neg : forall W ld k t d n x m, offered d -> denotes t d -> 0 <= n -> x < 0 ->
  pcall W ld k "block" [VType t; VTuple [VInt n]; VInt x; map_object m] = Raises "OverflowError" [].
Proof.
  intros W ld k t d n x m H4 Ht Hr Hx. destruct x as [|p|p]; [lia|lia|]; each4 H4; try contradiction; ptypes Ht;
    unfold pcall, one_call, map_object; run_py; follow; rewrite tests_no by reflexivity; reflexivity.
Qed.

Lemma vector_zero : forall W ld k t d n v m, offered d -> denotes t d -> 0 <= n -> v = VInt 0 \/ v = VNum 0 \/ v = VCplx 0 ->
  pcall W ld k "block" [VType t; VTuple [VInt n]; v; map_object m] =
  one_call W "block1" [("l", VInt n); ("m", map_object m)] (VObj "block1" d k).
Proof. intros W ld k t d n v m H4 Ht Hn Hv. repeat (destruct Hv as [Hv | Hv]); subst; each4 H4; ptypes Ht; prun. Qed.
Lemma matrix_zero : forall W ld k t d r c v m, offered d -> denotes t d -> 0 <= r -> 0 <= c -> v = VInt 0 \/ v = VNum 0 \/ v = VCplx 0 ->
  pcall W ld k "block" [VType t; VTuple [VInt r; VInt c]; v; map_object m] =
  one_call W "block2" [("r", VInt r); ("c", VInt c); ("m", map_object m)] (VObj "block2" d k).
Proof. intros W ld k t d r c v m H4 Ht Hn Hc Hv. repeat (destruct Hv as [Hv | Hv]); subst; each4 H4; ptypes Ht; prun. Qed.

Lemma tensor_plain : forall W ld k t d n0 n1 n2 m, offered d -> denotes t d -> 0 <= n0 -> 0 <= n1 -> 0 <= n2 < 2147483648 ->
  pcall W ld k "block" [VType t; VTuple [VInt n0; VInt n1; VInt n2]; map_object m] =
  one_call W "block2_init" [("r", VInt n0); ("c", VInt n1); ("value", VInt n2); ("m", map_object m)] (VObj "block2" d k).
Proof. intros W ld k t d n0 n1 n2 m H4 Ht H0 H1 H2. each4 H4; ptypes Ht; prun. Qed.

Lemma cd_missing : forall W ld k t shape m, denotes t C128 ->
  pcall W ld k "block" [VType t; shape; map_object m] = Raises "AttributeError" [].
Proof. intros W ld k t shape m Ht. ptypes Ht; prun. Qed.

Lemma array_unbound : forall W ld k i d shape m,
  pcall W ld k "block" [VArray i d shape; map_object m] = Raises "UnboundLocalError" [].
Proof. intros W ld k i d shape m. prun. Qed.

Lemma subblock1 : forall W ld k D d i s, offered d ->
  pcall W ld k "subblock" [distributed D d i; VTuple [VSlice s]] = Raises "AttributeError" [].
Proof. intros W ld k D d i s H4. each4 H4; prun. Qed.
Lemma subblock2 : forall W ld k D d i s s', offered d ->
  pcall W ld k "subblock" [distributed D d i; VTuple [VSlice s; VSlice s']] = Raises "AttributeError" [].
Proof. intros W ld k D d i s s' H4. each4 H4; prun. Qed.
