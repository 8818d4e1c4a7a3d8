(** Fast convolution of radar pulses, benchmarks/fastconv.cpp, in its versions, on one processor.  The views and transforms
    are as in Firbank.v; the timing and the random data are left out. *)
From Coq Require Import ZArith List Bool Arith.
From Verif Require Import Base Dft Firbank.
Import ListNotations.
Local Open Scope nat_scope.

Section Fastconv.
Context {R : CRing} (t : trig R).
Notation C := (Cr R).
(** fastconv.cpp 50: [M] pulses (npulse) of [N] samples (nrange); the scale of the inverse transform, 1.0/nrange (88). *)
Variables M N : nat.
Variable sc : R.
(** A matrix whose [M] rows are replaced. *)
Definition on_rows (f : nat -> nat -> C) (old : nat -> nat -> C) : nat -> nat -> C := fun p => if p <? M then f p else old p.
(** The matrix of data and the temporary (a matrix or, in row 0, a vector). *)
Record state := St { data : nat -> nat -> C; tmp : nat -> nat -> C }.

(** 103-105 (Impl1op), 725-727 (Impl3): the phases one after the other, out of place. *)
Definition phased (replica : nat -> C) (s : state) : option state :=
  let s := St (data s) (on_rows (fun p => fft t N (-1) r1 (data s p)) (tmp s)) in
  let s := St (data s) (on_rows (fun p w => (replica w * tmp s p w)%cr) (tmp s)) in
  Some (St (on_rows (fun p => fft t N 1 sc (tmp s p)) (data s)) (tmp s)).
(** 157-159 (Impl1ip): in place. *)
Definition phased_in_place (replica : nat -> C) (s : state) : option state :=
  let s := St (on_rows (fun p => fft t N (-1) r1 (data s p)) (data s)) (tmp s) in
  let s := St (on_rows (fun p w => (replica w * data s p w)%cr) (data s)) (tmp s) in
  Some (St (on_rows (fun p => fft t N 1 sc (data s p)) (data s)) (tmp s)).
(** 212-216 (Impl1pip1): the transforms row by row, in place. *)
Definition phased_rows (replica : nat -> C) (s : state) : option state :=
  d <- loop (fun p d => Some (set_row d p (fft t N (-1) r1 (d p)))) 0 M (data s) ;;
  let d := on_rows (fun p w => (replica w * d p w)%cr) d in
  d <- loop (fun p d => Some (set_row d p (fft t N 1 sc (d p)))) 0 M d ;;
  Some (St d (tmp s)).
(** 286-296 (Impl1pip2), 342-352 (Impl1pip2_nopar): the same by way of a temporary vector. *)
Definition phased_rows_tmp (replica : nat -> C) (s : state) : option state :=
  s <- loop (fun p s => let v := set_row (tmp s) 0 (fft t N (-1) r1 (data s p)) in Some (St (set_row (data s) p (v 0%nat)) v)) 0 M s ;;
  let s := St (on_rows (fun p w => (replica w * data s p w)%cr) (data s)) (tmp s) in
  loop (fun p s => let v := set_row (tmp s) 0 (fft t N 1 sc (data s p)) in Some (St (set_row (data s) p (v 0%nat)) v)) 0 M s.
(** 423-428 (Impl2op), 657-659 (Fast_convolution): every pulse through all phases, by way of a temporary vector. *)
Definition interleaved (replica : nat -> C) (s : state) : option state :=
  loop (fun p s =>
    let v := set_row (tmp s) 0 (fft t N (-1) r1 (data s p)) in
    let v := set_row v 0 (fun w => (v 0%nat w * replica w)%cr) in
    Some (St (set_row (data s) p (fft t N 1 sc (v 0%nat))) v)) 0 M s.
(** 518-523 (Impl2ip): in place. *)
Definition interleaved_in_place (replica : nat -> C) (s : state) : option state :=
  loop (fun p s =>
    let d := set_row (data s) p (fft t N (-1) r1 (data s p)) in
    let d := set_row d p (fun w => (d p w * replica w)%cr) in
    let d := set_row d p (fft t N 1 sc (d p)) in
    Some (St d (tmp s))) 0 M s.
(** 613-620 (Impl2ip_tmp): in place in a temporary vector. *)
Definition interleaved_in_tmp (replica : nat -> C) (s : state) : option state :=
  loop (fun p s =>
    let v := set_row (tmp s) 0 (data s p) in
    let v := set_row v 0 (fft t N (-1) r1 (v 0%nat)) in
    let v := set_row v 0 (fun w => (v 0%nat w * replica w)%cr) in
    let v := set_row v 0 (fft t N 1 sc (v 0%nat)) in
    Some (St (set_row (data s) p (v 0%nat)) v)) 0 M s.
(** 800 (Impl4vc): data = inv_fftm(vmmul<0>(replica, for_fftm(data))). *)
Definition one_line (replica : nat -> C) (s : state) : option state :=
  Some (St (on_rows (fftm t N 1 sc (fun p w => (replica w * fftm t N (-1) r1 (data s) p w)%cr)) (data s)) (tmp s)).
(** 921 (Impl4mc): data = inv_fftm(replica * for_fftm(data)), with a replica for every pulse. *)
Definition one_line_matrix (replicas : nat -> nat -> C) (s : state) : option state :=
  Some (St (on_rows (fftm t N 1 sc (fun p w => (replicas p w * fftm t N (-1) r1 (data s) p w)%cr)) (data s)) (tmp s)).
(** 99-106: the repetitions, each of which convolves what the last has left. *)
Definition repeated (body : state -> option state) (loops : nat) (s : state) : option state := loop (fun _ => body) 0 loops s.

(** * Specification *)
(** [x], a periodic sequence of [N] samples, convolved with [h] the given number of times. *)
Fixpoint convolved (h : nat -> C) (times : nat) (x : nat -> C) : nat -> C :=
  match times with O => x | S l => convolved h l (fun n => sum (fun k => (h k * x ((n + N - k) mod N)%nat)%cr) N) end.
End Fastconv.
