(** C95: filter objects can be copied, assigned, reset and destroyed
    independently. *)
From Coq Require Import ZArith List Lia Bool Arith.
From Verif Require Import Base Fir Iir FiltObj FiltObjProofs.
Import ListNotations.
Local Open Scope nat_scope.

(** Every program of Fir objects of one type that keeps to the rules of
    [track] runs without an invalid access; each call returns the samples of
    the convolution of all that its variable was fed since construction or
    reset - what was fed to the filter it was copied or assigned from among
    them, what is done to other variables not; and when all variables are
    destroyed, so are all filters and all their blocks. *)
Theorem C95_fir (K : CRing) (save : bool) (S : symmetry) (ops : list (op (list K * nat * nat) K)) s q :
  exec (track (fir_make S) fir_accepts (fun _ _ => true) save) [] ops = Some (s, q) ->
  exists st r, exec (fstep save S) fstart ops = Some (st, r) /\ Forall2 fir_answer q r /\
    (Forall (eq None) s -> Forall (eq None) (fvars st) /\ Forall (eq None) (backs st) /\ Forall (eq None) (vecs st)).
Proof.
  intros E. destruct (fir_exec save S ops fstart [] s q (inv_start save) E) as (st & r & X & I & F). exists st, r.
  split; [exact X|]. split; [exact F|]. exact (inv_empty save st s I).
Qed.
(** The same for Iir objects, whose calls return the response of the cascade
    of difference equations; filters with different numbers of sections may
    not be assigned to each other. *)
Theorem C95_iir (K : CRing) (save : bool) (ops : list (op (@matrix K * @matrix K * nat) K)) s q :
  exec (track iir_make iir_accepts iir_assignable save) [] ops = Some (s, q) ->
  exists st r, exec (istep save) istart ops = Some (st, r) /\ Forall2 iir_answer q r /\
    (Forall (eq None) s -> Forall (eq None) (ivars st) /\ Forall (eq None) (mats st)).
Proof.
  intros E. destruct (iir_exec save ops istart [] s q (iinv_start save) E) as (st & r & X & I & F). exists st, r.
  split; [exact X|]. split; [exact F|]. exact (iinv_empty save st s I).
Qed.
(** The answers are determined by what was asked. *)
Theorem C95_fir_answer_unique (K : CRing) (q : list K * nat * nat * list K * list K * list K) r r' : fir_answer q r -> fir_answer q r' -> r = r'.
Proof.
  destruct q as [[[[[h i] d] past] x] out], r as [o n], r' as [o' n']. cbn. intros [A ->] [B ->]. assert (n = n') as -> by lia. reflexivity.
Qed.
Theorem C95_iir_answer_unique (K : CRing) (q : @matrix K * @matrix K * nat * list K * list K * list K) r r' : iir_answer q r -> iir_answer q r' -> r = r'.
Proof.
  destruct q as [[[[[b a] n] past] x] out]. cbn. intros (y & C & ->) (y' & C' & ->). rewrite (IirProofs.cascade_unique b a _ y y' C C'). reflexivity.
Qed.
(** In every reachable state, an IIR filter with another number of sections is
    refused by assignment. *)
Theorem C95_iir_sections (K : CRing) (save : bool) (ops : list (op (@matrix K * @matrix K * nat) K)) st r v w x y f g :
  exec (istep save) istart ops = Some (st, r) -> at_ (ivars st) v = Some x -> at_ (ivars st) w = Some y -> iload st x = Some f -> iload st y = Some g ->
  length (a_ f) <> length (a_ g) -> istep save st (Assign v w) = None.
Proof.
  intros _ Ex Ey Lf Lg N. cbn [istep]. rewrite Ex. cbn [bind]. rewrite Ey. cbn [bind]. rewrite Lf, Lg. cbn [bind]. rewrite (proj2 (Nat.eqb_neq _ _)) by lia. reflexivity.
Qed.

Local Open Scope Z_scope.
(** h = (1, 10); a filter is fed (1, 2), copied, and the copy and the original
    go on differently; then the copy is assigned to the original, which is
    reset. *)
Definition ex_fir : list (op (list Zring * nat * nat) Zring) :=
  [New ([1; 10], 2%nat, 1%nat); Call 0 [1; 2] [0; 0]; Copy 0; Call 0 [3; 4] [0; 0]; Call 1 [5; 6] [0; 0]; Assign 0 1; Call 1 [7; 8] [0; 0]; Call 0 [9; 9] [0; 0];
   Reset 0; Call 0 [1; 1] [0; 0]; Assign 1 1; Call 1 [0; 0] [0; 0]; Destroy 0; Destroy 1].
Example C95_fir_ex :
  option_map (fun x => (fst x, map (fun q => snd (fst (fst q))) (snd x))) (exec (track (fir_make (K := Zring) nonsym) fir_accepts (fun _ _ => true) true) [] ex_fir)
    = Some ([None; None], [[]; [1; 2]; [1; 2]; [1; 2; 5; 6]; [1; 2; 5; 6]; []; [1; 2; 5; 6; 7; 8]]) /\
  option_map snd (exec (fstep (K := Zring) true nonsym) fstart ex_fir)
    = Some [([1; 12], 2%nat); ([23; 34], 2%nat); ([25; 56], 2%nat); ([67; 78], 2%nat); ([69; 99], 2%nat); ([1; 11], 2%nat); ([80; 0], 2%nat)] /\
  option_map snd (exec (fstep (K := Zring) false nonsym) fstart ex_fir)
    = Some [([1; 12], 2%nat); ([3; 34], 2%nat); ([5; 56], 2%nat); ([7; 78], 2%nat); ([9; 99], 2%nat); ([1; 11], 2%nat); ([0; 0], 2%nat)].
Proof. vm_compute. repeat split. Qed.
(** y(n) = x(n) + 2 y(n-1). *)
Definition ex_iir : list (op (@matrix Zring * @matrix Zring * nat) Zring) :=
  [New ([[1; 0; 0]], [[-2; 0]], 2%nat); Call 0 [1; 0] [0; 0]; Copy 0; Call 0 [0; 0] [0; 0]; Call 1 [0; 1] [0; 0]; New ([[1; 0; 0]], [[0; 0]], 1%nat);
   Assign 2 1; Call 2 [0; 0] [0; 0]; Call 1 [0; 0] [0; 0]; Reset 1; Call 1 [1; 1] [0; 0]; Destroy 2; Destroy 0; Destroy 1].
Example C95_iir_ex :
  option_map (fun x => (fst x, map (fun q => snd (fst (fst q))) (snd x))) (exec (track (iir_make (K := Zring)) iir_accepts iir_assignable true) [] ex_iir)
    = Some ([None; None; None], [[]; [1; 0]; [1; 0]; [1; 0; 0; 1]; [1; 0; 0; 1]; []]) /\
  option_map snd (exec (istep (K := Zring) true) istart ex_iir) = Some [[1; 2]; [4; 8]; [4; 9]; [18; 36]; [18; 36]; [1; 3]].
Proof. vm_compute. repeat split. Qed.

Print Assumptions C95_fir.
Print Assumptions C95_iir.
Print Assumptions C95_fir_answer_unique.
Print Assumptions C95_iir_answer_unique.
Print Assumptions C95_iir_sections.
