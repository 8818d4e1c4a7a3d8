(** Model of the life of filter objects: construction, copying, assignment,
    calls, reset and destruction of Fir objects
    (src/vsip/impl/signal/fir.hpp, src/ovxx/signal/fir.hpp) and Iir objects
    (src/vsip/impl/signal/iir.hpp).  What the calls compute is in [Fir] and
    [Iir].  All objects of a program have the same type, as assignment
    demands, so that the symmetry [S] and state_save ([save]) are fixed.
    A variable is a number, given out in the order of construction. *)
From Coq Require Import ZArith List Lia Bool Arith.
From Verif Require Import Base Fir Iir.
Import ListNotations.
Local Open Scope nat_scope.

(** The statements of a program; [C] is what a constructor takes. *)
Inductive op (C E : Type) :=
| New (c : C)
| Copy (w : nat)                        (* F v(w); *)
| Assign (v w : nat)                    (* v = w; *)
| Call (v : nat) (x out : list E)       (* v(x, out); *)
| Reset (v : nat)
| Destroy (v : nat).
Arguments New {C E}. Arguments Copy {C E}. Arguments Assign {C E}. Arguments Call {C E}. Arguments Reset {C E}. Arguments Destroy {C E}.

Definition at_ {A} (l : list (option A)) (i : nat) : option A := match nth_error l i with Some (Some x) => Some x | _ => None end.
(** Running a program; the results of the calls are collected. *)
Fixpoint exec {St O R} (step : St -> O -> option (St * list R)) (st : St) (ops : list O) : option (St * list R) :=
  match ops with
  | [] => Some (st, [])
  | o :: r => x <- step st o ;; y <- exec step (fst x) r ;; Some (fst y, snd x ++ snd y)
  end.

Section FirObj.
Context {K : CRing} (save : bool) (S : symmetry).
(** The members of the backend: ovxx/signal/fir.hpp 60-64 and 169-172.
    kernel_ and state_ are views: they refer to blocks. *)
Record bk := Bk { bbase : backend; bskip : nat; kb : nat; sb : nat; bsaved : nat }.
(** Variables refer to backends (shared_ptr), backends to blocks; both have
    reference counts. *)
Record fstate := FState { fvars : list (option nat); backs : list (option (nat * bk)); vecs : list (option (nat * list K)) }.
Definition fstart : fstate := FState [] [] [].

Definition load (st : fstate) (p : nat) : option (fir K) :=
  x <- at_ (backs st) p ;; let k := snd x in
  kl <- at_ (vecs st) (kb k) ;; sl <- at_ (vecs st) (sb k) ;;
  Some {| base := bbase k; skip_ := bskip k; kernel_ := snd kl; state_ := snd sl; state_saved_ := bsaved k |}.
(** The members that apply() and reset() write: skip_, state_saved_ and the
    elements of state_. *)
Definition store (st : fstate) (p : nat) (f : fir K) : option fstate :=
  x <- at_ (backs st) p ;; let k := snd x in
  sl <- at_ (vecs st) (sb k) ;;
  Some (FState (fvars st) (lset (backs st) p (Some (fst x, Bk (bbase k) (skip_ f) (kb k) (sb k) (state_saved_ f))))
         (lset (vecs st) (sb k) (Some (fst sl, state_ f)))).
(** vsip/impl/signal/fir.hpp 63-71, ovxx/signal/fir.hpp 73-89. *)
Definition fnew (st : fstate) (c : list K * nat * nat) : option fstate :=
  let '(kernel, i, d) := c in
  f <- make_fir S kernel i d ;;
  let b := length (vecs st) in
  Some (FState (fvars st ++ [Some (length (backs st))])
         (backs st ++ [Some (1, Bk (base f) (skip_ f) b (b + 1) (state_saved_ f))])
         (vecs st ++ [Some (1, kernel_ f); Some (1, state_ f)])).
(** ovxx/signal/fir.hpp 91-98: clone().  kernel_ is copied as a view, so both
    backends refer to the same block; state_ is constructed from a sub-view of
    another block type, which allocates a block and copies the elements. *)
Definition clone (st : fstate) (p : nat) : option (fstate * nat) :=
  x <- at_ (backs st) p ;; let k := snd x in
  kl <- at_ (vecs st) (kb k) ;;
  sl <- at_ (vecs st) (sb k) ;;
  Some (FState (fvars st)
          (backs st ++ [Some (1, Bk (bbase k) (bskip k) (kb k) (length (vecs st)) (bsaved k))])
          (lset (vecs st) (kb k) (Some (fst kl + 1, snd kl)) ++ [Some (1, snd sl)]),
        length (backs st)).
(** A second shared_ptr. *)
Definition share (st : fstate) (p : nat) : option fstate :=
  x <- at_ (backs st) p ;; Some (FState (fvars st) (lset (backs st) p (Some (fst x + 1, snd x))) (vecs st)).
(** The end of a view: the block is freed with its last view. *)
Definition drop_vec (v : list (option (nat * list K))) (b : nat) : option (list (option (nat * list K))) :=
  x <- at_ v b ;; Some (lset v b (if fst x =? 1 then None else Some (fst x - 1, snd x))).
(** The end of a shared_ptr: the backend and its views end with the last. *)
Definition release (st : fstate) (p : nat) : option fstate :=
  x <- at_ (backs st) p ;;
  if fst x =? 1 then
    v <- drop_vec (vecs st) (sb (snd x)) ;; v <- drop_vec v (kb (snd x)) ;;
    Some (FState (fvars st) (lset (backs st) p None) v)
  else Some (FState (fvars st) (lset (backs st) p (Some (fst x - 1, snd x))) (vecs st)).
Definition with_vars (st : fstate) (vs : list (option nat)) : fstate := FState vs (backs st) (vecs st).

Definition fstep (st : fstate) (o : op (list K * nat * nat) K) : option (fstate * list (list K * nat)) :=
  match o with
  | New c => st' <- fnew st c ;; Some (st', [])
  (* vsip/impl/signal/fir.hpp 83-87 *)
  | Copy w =>
      p <- at_ (fvars st) w ;;
      if save then r <- clone st p ;; Some (with_vars (fst r) (fvars st ++ [Some (snd r)]), [])
      else r <- share st p ;; Some (with_vars r (fvars st ++ [Some p]), [])
  (* vsip/impl/signal/fir.hpp 89-96; shared_ptr's assignment takes the new
     reference before it gives up the old one *)
  | Assign v w =>
      old <- at_ (fvars st) v ;; p <- at_ (fvars st) w ;;
      if save then r <- clone st p ;; r' <- release (fst r) old ;; Some (with_vars r' (lset (fvars st) v (Some (snd r))), [])
      else r <- share st p ;; r' <- release r old ;; Some (with_vars r' (lset (fvars st) v (Some p)), [])
  (* vsip/impl/signal/fir.hpp 109-141 *)
  | Call v x out =>
      p <- at_ (fvars st) v ;; f <- load st p ;;
      r <- Fir.filter save f x out ;; let '(f', out', n) := r in
      st' <- store st p f' ;; Some (st', [(out', n)])
  (* vsip/impl/signal/fir.hpp 143 *)
  | Reset v => p <- at_ (fvars st) v ;; f <- load st p ;; st' <- store st p (Fir.reset f) ;; Some (st', [])
  (* the implicit destructor *)
  | Destroy v => p <- at_ (fvars st) v ;; st' <- release st p ;; Some (with_vars st' (lset (fvars st) v None), [])
  end.
End FirObj.
Arguments fstate : clear implicits.

Section IirObj.
Context {K : CRing} (save : bool).
(** iir.hpp 86-89: three views, and the input size. *)
Record iobj := IObj { bp : nat; ap : nat; wp : nat; isz : nat }.
Record istate := IState { ivars : list (option iobj); mats : list (option (@matrix K)) }.
Definition istart : istate := IState [] [].
Definition iload (st : istate) (o : iobj) : option (iir K) :=
  b <- at_ (mats st) (bp o) ;; a <- at_ (mats st) (ap o) ;; w <- at_ (mats st) (wp o) ;;
  Some {| b_ := b; a_ := a; w_ := w; Iir.input_size := isz o |}.
(** Assignment of a matrix view: the sizes must agree; the elements are
    copied. *)
Definition same_shape (x y : @matrix K) : bool :=
  (length x =? length y) && forallb (fun p => length (fst p) =? length (snd p)) (combine x y).
Definition assign_mat (m : list (option (@matrix K))) (dst src : nat) : option (list (option (@matrix K))) :=
  d <- at_ m dst ;; s <- at_ m src ;; assert same_shape d s ;; Some (lset m dst (Some s)).
Definition istep (st : istate) (o : op (@matrix K * @matrix K * nat) K) : option (istate * list (list K)) :=
  match o with
  (* iir.hpp 27-41 *)
  | New (b, a, n) =>
      f <- make_iir b a n ;; let p := length (mats st) in
      Some (IState (ivars st ++ [Some (IObj p (p + 1) (p + 2) n)]) (mats st ++ [Some (b_ f); Some (a_ f); Some (w_ f)]), [])
  (* iir.hpp 43-52: three new matrices of the sizes of [b_], [a_] with 3, 2 and
     2 columns, to which those of the other filter are assigned *)
  | Copy w =>
      x <- at_ (ivars st) w ;; f <- iload st x ;; let p := length (mats st) in
      m <- assign_mat (mats st ++ [Some (repeat (repeat 0%cr 3) (length (b_ f))); Some (repeat (repeat 0%cr 2) (length (a_ f))); Some (repeat (repeat 0%cr 2) (length (b_ f)))])
             p (bp x) ;;
      m <- assign_mat m (p + 1) (ap x) ;; m <- assign_mat m (p + 2) (wp x) ;;
      Some (IState (ivars st ++ [Some (IObj p (p + 1) (p + 2) (isz x))]) m, [])
  (* iir.hpp 54-65 *)
  | Assign v w =>
      y <- at_ (ivars st) v ;; x <- at_ (ivars st) w ;; g <- iload st y ;; f <- iload st x ;;
      assert (2 * length (a_ g) =? 2 * length (a_ f)) ;;
      m <- assign_mat (mats st) (bp y) (bp x) ;; m <- assign_mat m (ap y) (ap x) ;; m <- assign_mat m (wp y) (wp x) ;;
      Some (IState (lset (ivars st) v (Some (IObj (bp y) (ap y) (wp y) (isz x)))) m, [])
  (* iir.hpp 93-142: only w_ is written *)
  | Call v x out =>
      y <- at_ (ivars st) v ;; f <- iload st y ;; r <- Iir.filter save f x out ;;
      Some (IState (ivars st) (lset (mats st) (wp y) (Some (w_ (fst r)))), [snd r])
  (* iir.hpp 84 *)
  | Reset v =>
      y <- at_ (ivars st) v ;; f <- iload st y ;;
      Some (IState (ivars st) (lset (mats st) (wp y) (Some (w_ (Iir.reset f)))), [])
  (* the implicit destructor: no other object refers to the three blocks *)
  | Destroy v =>
      y <- at_ (ivars st) v ;; _ <- iload st y ;;
      Some (IState (lset (ivars st) v None) (lset (lset (lset (mats st) (bp y) None) (ap y) None) (wp y) None), [])
  end.
End IirObj.
Arguments istate : clear implicits.

(** ** Specification *)
(** Each variable is a filter (a value of type [D]) together with the signal
    it was fed since it was made or reset; a copy takes over both.  [make]
    says which filter the constructor's arguments describe, if they are
    allowed; [accepts], whether a filter takes vectors of these lengths;
    [assignable], whether a filter may be assigned to another.  For every
    call, the filter, the signal before it, the new piece and the output
    vector before the call are collected. *)
Section Track.
Context {C D E : Type} (make : C -> option D) (accepts : D -> nat -> nat -> bool) (assignable : D -> D -> bool) (save : bool).
Definition track (s : list (option (D * list E))) (o : op C E) : option (list (option (D * list E)) * list (D * list E * list E * list E)) :=
  match o with
  | New c => d <- make c ;; Some (s ++ [Some (d, [])], [])
  | Copy w => t <- at_ s w ;; Some (s ++ [Some t], [])
  | Assign v w => u <- at_ s v ;; t <- at_ s w ;; assert assignable (fst u) (fst t) ;; Some (lset s v (Some t), [])
  | Call v x out =>
      t <- at_ s v ;; assert accepts (fst t) (length x) (length out) ;;
      Some (lset s v (Some (fst t, if save then snd t ++ x else [])), [(fst t, snd t, x, out)])
  | Reset v => t <- at_ s v ;; Some (lset s v (Some (fst t, [])), [])
  | Destroy v => t <- at_ s v ;; Some (lset s v None, [])
  end.
End Track.
(** FIR filters: the full kernel, the size of the pieces, the decimation. *)
Definition fir_make {K : CRing} (S : symmetry) (c : list K * nat * nat) : option (list K * nat * nat) :=
  let '(k, i, d) := c in
  let h := match S with nonsym => k | sym_even_len_odd => k ++ tl (rev k) | sym_even_len_even => k ++ rev k end in
  if (match S with nonsym => 1 | _ => 0 end <? length k) && (0 <? i) && (0 <? d) && (d <? length h) && (length h <=? i + 1) then Some (h, i, d) else None.
Definition fir_accepts {K : CRing} (f : list K * nat * nat) (lx lo : nat) : bool :=
  let '(h, i, d) := f in (lx =? i) && (lo =? (i + d - 1) / d).
(** The answer to a call: the samples at the decimation points in the new
    piece of the convolution of the whole signal. *)
Definition fir_answer {K : CRing} (q : list K * nat * nat * list K * list K * list K) (r : list K * nat) : Prop :=
  let '(h, i, d, past, x, out) := q in let '(o, n) := r in
  let first := (length past + d - 1) / d in
  first + n = (length past + length x + d - 1) / d /\
  o = map (fun q => conv_at h (past ++ x) ((first + q) * d)) (seq 0 n) ++ skipn n out.
(** IIR filters: the coefficients and the size of the pieces. *)
Definition iir_make {K : CRing} (c : @matrix K * @matrix K * nat) : option (@matrix K * @matrix K * nat) :=
  let '(b, a, n) := c in
  if (length b =? length a) && forallb (fun r => length r =? 3) b && forallb (fun r => length r =? 2) a then Some c else None.
Definition iir_accepts {K : CRing} (f : @matrix K * @matrix K * nat) (lx lo : nat) : bool := (lx =? snd f) && (lo =? snd f).
Definition iir_assignable {K : CRing} (f g : @matrix K * @matrix K * nat) : bool := length (snd (fst f)) =? length (snd (fst g)).
Definition iir_answer {K : CRing} (q : @matrix K * @matrix K * nat * list K * list K * list K) (o : list K) : Prop :=
  let '(b, a, n, past, x, out) := q in
  exists y, cascade b a (past ++ x) y /\ o = skipn (length past) y.
