(** Model of the three ways to change a sample rate by P / Q in
    share/examples/dsp/resample.cpp, over the filters of [Fir] and vectors
    subscripted with domains.  The example has fixed numbers; here they are
    arguments.  Simplifications: exact arithmetic, also for the output length
    (line 59, a float); in the third way each filter is made just before it is
    used, and there are P of them. *)
From Coq Require Import ZArith List Lia Bool Arith.
From Verif Require Import Base Fir.
Import ListNotations.
Local Open Scope nat_scope.

Section Resample.
Context {K : CRing}.
Local Open Scope cr_scope.

(** The elements of v(Domain<1>(first, stride, len)); [None]: outside v. *)
Fixpoint gather (v : list K) (first stride len : nat) : option (list K) :=
  match len with
  | 0%nat => Some []
  | S n => x <- bget v first ;; r <- gather v (first + stride) stride n ;; Some (x :: r)
  end.
Fixpoint scatter (v : list K) (first stride : nat) (src : list K) : option (list K) :=
  match src with
  | [] => Some v
  | x :: r => v' <- bput v first x ;; scatter v' (first + stride) stride r
  end.
(** v(Domain<1>(first, stride, len)) = src; the sizes must agree. *)
Definition assign_sub (v : list K) (first stride len : nat) (src : list K) : option (list K) :=
  assert (length src =? len)%nat ;; scatter v first stride src.

(** 58-59. *)
Definition tmp_size (P M : nat) : nat := (M * P)%nat.
Definition out_size (P Q M : nat) : nat := ((tmp_size P M + Q - 1) / Q)%nat.
(** 82, 90 and 110: upsampling into a vector of zeros. *)
Definition upsampled (P M : nat) (x : list K) : option (list K) := assign_sub (repeat 0 (tmp_size P M)) 0 P M x.
(** 82-96: upsample, filter, downsample. *)
Definition simple (P Q M : nat) (h x : list K) : option (list K) :=
  xx <- upsampled P M x ;;
  lpf <- make_fir nonsym h (tmp_size P M) 1 ;;
  r <- filter true lpf xx (repeat 0 (tmp_size P M)) ;;
  gather (snd (fst r)) 0 Q (out_size P Q M).
(** 106-113: the filter decimates. *)
Definition decimating (P Q M : nat) (h x : list K) : option (list K) :=
  xx <- upsampled P M x ;;
  lpf <- make_fir nonsym h (tmp_size P M) Q ;;
  r <- filter true lpf xx (repeat 0 (out_size P Q M)) ;;
  Some (snd (fst r)).
(** 126-147: filter r has the coefficients r, r + P, r + 2 P, ... and writes the
    elements r, r + P, ... of [yy]. *)
Definition polyphase (P Q M S : nat) (h x yy : list K) : option (list K) :=
  yy <- loop (fun r yy =>
                hr <- gather h r P S ;;
                lp <- make_fir nonsym hr M 1 ;;
                o <- gather yy r P (tmp_size P M / P) ;;
                y <- filter true lp x o ;;
                assign_sub yy r P (tmp_size P M / P) (snd (fst y))) 0 P yy ;;
  gather yy 0 Q (out_size P Q M).

(** ** Specification *)
(** The signal with P - 1 zeros put after each sample. *)
Definition stuffed (P : nat) (x : list K) (p : nat) : K := if (p mod P =? 0)%nat then nth (p / P) x 0 else 0.
(** Sample [q] of the resampled signal: every Q-th sample of the stuffed signal
    filtered with h. *)
Definition resampled (P Q : nat) (h x : list K) (q : nat) : K :=
  sum (fun j => nth j h 0 * (if (j <=? q * Q)%nat then stuffed P x (q * Q - j) else 0)) (length h).
End Resample.
