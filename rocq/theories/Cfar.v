(** The CFAR detection kernels of benchmarks/hpec_kernel/cfar.cpp, in their three versions.  Arithmetic on the
    data is exact in an arbitrary commutative ring, so the order of the terms of a sum has no effect; the comparison
    of a cell with the mean of its surroundings is an arbitrary function of the cell, the sum and the number
    that the sum is divided by.  Lengths are unbounded numbers; timing and the repetition of the whole
    computation are left out. *)
From Coq Require Import ZArith List Bool Arith.
From Verif Require Import Base.
Import ListNotations.
Local Open Scope nat_scope.

Section Cfar.
Context {R : CRing}.
(** cfar.cpp 138-142, 286-287, 467-470: hit p s u is  p / max(s * (1.0 / u), eps) > mu. *)
Variable hit : R -> R -> nat -> bool.
(** The cube, its extents, the number of CFAR gates and guard cells (81-98), and the number of columns of
    located (ntargets_, thirty: 196, 734). *)
Variable cube : nat -> nat -> nat -> R.
Variables beams dbins gates c g columns : nat.

(** get(i, j, k) with the check of the indices. *)
Definition cell (i j k : nat) : option R := assert ((i <? beams) && (j <? dbins) && (k <? gates)) ;; Some (cube i j k).
Definition square (x : R) : R := rmul x x.

(** The targets found: row k of located up to count(k).  located.row(k).put(count(k)++, Index<2>(i, j)) (288). *)
Definition found := nat -> list (nat * nat).
Definition put (k : nat) (ij : nat * nat) (F : found) : option found :=
  assert ((k <? gates) && (length (F k) <? columns)) ;;
  Some (fun k' => if k' =? k then F k ++ [ij] else F k').

(** ** One vector of range cells after the other: 217-330. *)
(** 284-288, 300-302: the test at gate k. *)
Definition test1 (p : nat -> option R) (ij : nat * nat) (k used : nat) (s : R * found) : option (R * found) :=
  x <- p k ;;
  if hit x (fst s) used then F <- put k ij (snd s) ;; Some (fst s, F) else Some s.
(** 260-289: cases 0 to 2. *)
Definition first1 (p : nat -> option R) (ij : nat * nat) (k : nat) (s : R * found) : option (R * found) :=
  if k =? 0 then
    sum <- loop (fun lnd sum => x <- p (1 + lnd) ;; Some (radd sum x)) g c (fst s) ;;
    test1 p ij k c (sum, snd s)
  else if k <? g + 1 then
    x <- p (k + g + c) ;; y <- p (k + g) ;;
    test1 p ij k c (radd (fst s) (rsub x y), snd s)
  else
    x <- p (k + g + c) ;; y <- p (k + g) ;; z <- p (k - (g + 1)) ;;
    test1 p ij k (c + k - (g + 1)) (radd (fst s) (radd (rsub x y) z), snd s).
(** 291-303: case 3. *)
Definition middle1 (p : nat -> option R) (ij : nat * nat) (k : nat) (s : R * found) : option (R * found) :=
  x <- p (k + g + c) ;; y <- p (k + g) ;; z <- p (k - (g + 1)) ;; w <- p (k - (c + g + 1)) ;;
  test1 p ij k (2 * c) (radd (fst s) (rsub (radd (rsub x y) z) w), snd s).
(** 305-326: cases 4 and 5. *)
Definition last1 (p : nat -> option R) (ij : nat * nat) (k : nat) (s : R * found) : option (R * found) :=
  if k + g <? gates then
    y <- p (k + g) ;; z <- p (k - (g + 1)) ;; w <- p (k - (c + g + 1)) ;;
    test1 p ij k (c + gates - (k + g)) (radd (fst s) (rsub (radd (ropp y) z) w), snd s)
  else
    z <- p (k - (g + 1)) ;; w <- p (k - (c + g + 1)) ;;
    test1 p ij k c (radd (fst s) (rsub z w), snd s).
(** 246-327: one beam and doppler bin; the squares are computed for the vector first (258). *)
Definition vector1 (i j : nat) (F : found) : option found :=
  let p k := option_map square (cell i j k) in
  s <- loop (first1 p (i, j)) 0 (g + c + 1) (r0, F) ;;
  s <- loop (middle1 p (i, j)) (g + c + 1) (gates - (g + c) - (g + c + 1)) s ;;
  s <- loop (last1 p (i, j)) (gates - (g + c)) (g + c) s ;;
  Some (snd s).
(** 238-328: count = 0, then every beam and bin. *)
Definition by_vector : option found :=
  loop (fun i F => loop (fun j F => vector1 i j F) 0 dbins F) 0 beams (fun _ => []).

(** ** Four vectors at a time: 394-540. *)
(** 466-480, 489-502, 524-536: the test of the four lanes.  The mask of a lane that compares greater is not zero. *)
Definition test4 (p : nat -> nat -> option R) (i j k used : nat) (s : (nat -> R) * found) : option ((nat -> R) * found) :=
  loop (fun aa s => x <- p aa k ;; if hit x (fst s aa) used then F <- put k (i, j + aa) (snd s) ;; Some (fst s, F) else Some s) 0 4 s.
(** All lanes can be read at gate k, and the four values. *)
Definition strip (p : nat -> nat -> option R) (k : nat) : option (nat -> R) :=
  x0 <- p 0 k ;; x1 <- p 1 k ;; x2 <- p 2 k ;; x3 <- p 3 k ;;
  Some (fun aa => match aa with 0 => x0 | 1 => x1 | 2 => x2 | _ => x3 end).
(** 441-482: cases 0 to 2. *)
Definition first4 (p : nat -> nat -> option R) (i j k : nat) (s : (nat -> R) * found) : option ((nat -> R) * found) :=
  if k =? 0 then
    sum <- loop (fun lnd sum => x <- strip p (1 + lnd) ;; Some (fun aa => radd (sum aa) (x aa))) g c (fst s) ;;
    test4 p i j k c (sum, snd s)
  else if k <? g + 1 then
    x <- strip p (k + g + c) ;; y <- strip p (k + g) ;;
    test4 p i j k c (fun aa => radd (fst s aa) (rsub (x aa) (y aa)), snd s)
  else
    x <- strip p (k + g + c) ;; y <- strip p (k + g) ;; z <- strip p (k - (g + 1)) ;;
    test4 p i j k (c + k - (g + 1)) (fun aa => radd (fst s aa) (radd (rsub (x aa) (y aa)) (z aa)), snd s).
(** 484-503: case 3. *)
Definition middle4 (p : nat -> nat -> option R) (i j k : nat) (s : (nat -> R) * found) : option ((nat -> R) * found) :=
  x <- strip p (k + g + c) ;; y <- strip p (k + g) ;; z <- strip p (k - (g + 1)) ;; w <- strip p (k - (c + g + 1)) ;;
  test4 p i j k (2 * c) (fun aa => radd (fst s aa) (rsub (radd (rsub (x aa) (y aa)) (z aa)) (w aa)), snd s).
(** 504-537: cases 4 and 5. *)
Definition last4 (p : nat -> nat -> option R) (i j k : nat) (s : (nat -> R) * found) : option ((nat -> R) * found) :=
  if k + g <? gates then
    y <- strip p (k + g) ;; z <- strip p (k - (g + 1)) ;; w <- strip p (k - (c + g + 1)) ;;
    test4 p i j k (c + gates - (k + g)) (fun aa => radd (fst s aa) (rsub (radd (ropp (y aa)) (z aa)) (w aa)), snd s)
  else
    z <- strip p (k - (g + 1)) ;; w <- strip p (k - (c + g + 1)) ;;
    test4 p i j k c (fun aa => radd (fst s aa) (rsub (z aa) (w aa)), snd s).
(** 425-537: one beam and the doppler bins j to j + 3. *)
Definition vector4 (i j : nat) (F : found) : option found :=
  let p aa k := option_map square (cell i (j + aa) k) in
  s <- loop (first4 p i j) 0 (g + c + 1) (fun _ => r0, F) ;;
  s <- loop (middle4 p i j) (g + c + 1) (gates - (g + c) - (g + c + 1)) s ;;
  s <- loop (last4 p i j) (gates - (g + c)) (g + c) s ;;
  Some (snd s).
(** 418-538: j = 0, 4, 8, ... while j < dbins. *)
Definition by_four : option found :=
  loop (fun i F => loop (fun q F => vector4 i (4 * q) F) 0 ((dbins + 3) / 4) F) 0 beams (fun _ => []).

(** ** All vectors together: 81-189. *)
(** cpow(whole_domain, whole_domain, k): a matrix. *)
Definition slice (k : nat) : option (nat -> nat -> R) := assert (k <? gates) ;; Some (fun i j => square (cube i j k)).
Definition madd (a b : nat -> nat -> R) : nat -> nat -> R := fun i j => radd (a i j) (b i j).
Definition msub (a b : nat -> nat -> R) : nat -> nat -> R := fun i j => rsub (a i j) (b i j).
(** vsip/selgen.hpp 36-44, indexbool of a matrix into the row of located: the count, and the entries that fit. *)
Definition indexbool (m : nat -> nat -> bool) : nat * list (nat * nat) :=
  let l := filter (fun ij => m (fst ij) (snd ij)) (list_prod (seq 0 beams) (seq 0 dbins)) in (length l, firstn columns l).
(** 138-142, 155-159, 181-185: the test of a slice. *)
Definition testm (k used : nat) (sum : nat -> nat -> R) (F : nat -> nat * list (nat * nat)) :=
  x <- slice k ;;
  Some (sum, fun k' => if k' =? k then indexbool (fun i j => hit (x i j) (sum i j) used) else F k').
(** 112-143: cases 0 to 2. *)
Definition firstm (k : nat) (s : (nat -> nat -> R) * (nat -> nat * list (nat * nat))) :=
  if k =? 0 then
    sum <- loop (fun lnd sum => x <- slice (1 + lnd) ;; Some (madd sum x)) g c (fst s) ;;
    testm k c sum (snd s)
  else if k <? g + 1 then
    x <- slice (k + g + c) ;; y <- slice (k + g) ;;
    testm k c (msub (madd (fst s) x) y) (snd s)
  else
    x <- slice (k + g + c) ;; y <- slice (k + g) ;; z <- slice (k - (g + 1)) ;;
    testm k (c + k - (g + 1)) (madd (msub (madd (fst s) x) y) z) (snd s).
(** 145-160: case 3. *)
Definition middlem (k : nat) (s : (nat -> nat -> R) * (nat -> nat * list (nat * nat))) :=
  x <- slice (k + g + c) ;; y <- slice (k + g) ;; z <- slice (k - (g + 1)) ;; w <- slice (k - (c + g + 1)) ;;
  testm k (2 * c) (msub (madd (msub (madd (fst s) x) y) z) w) (snd s).
(** 162-186: cases 4 and 5. *)
Definition lastm (k : nat) (s : (nat -> nat -> R) * (nat -> nat * list (nat * nat))) :=
  if k + g <? gates then
    y <- slice (k + g) ;; z <- slice (k - (g + 1)) ;; w <- slice (k - (c + g + 1)) ;;
    testm k (c + gates - (k + g)) (msub (madd (msub (fst s) y) z) w) (snd s)
  else
    z <- slice (k - (g + 1)) ;; w <- slice (k - (c + g + 1)) ;;
    testm k c (msub (madd (fst s) z) w) (snd s).
(** 97-187: the counts and rows of located, which are not initialised (the parameter [F]). *)
Definition by_slice (F : nat -> nat * list (nat * nat)) : option (nat -> nat * list (nat * nat)) :=
  s <- loop firstm 0 (g + c + 1) (fun _ _ => r0, F) ;;
  s <- loop middlem (g + c + 1) (gates - (g + c) - (g + c + 1)) s ;;
  s <- loop lastm (gates - (g + c)) (g + c) s ;;
  Some (snd s).

(** * Specification *)

(** The gates that are compared with gate [k]: up to [c] on either side beyond [g] guard cells. *)
Definition near (k : nat) : list nat :=
  filter (fun r => let d := if r <? k then k - r else r - k in (g <? d) && (d <=? g + c)) (seq 0 gates).
(** The sum of their squares for one beam and bin. *)
Definition surroundings (i j k : nat) : R := fold_right radd r0 (map (fun r => rmul (cube i j r) (cube i j r)) (near k)).
(** The targets at gate [k] in order of beams and bins, when the mean is taken over [n] cells. *)
Definition targets (k n : nat) : list (nat * nat) :=
  filter (fun ij => hit (rmul (cube (fst ij) (snd ij) k) (cube (fst ij) (snd ij) k)) (surroundings (fst ij) (snd ij) k) n)
    (list_prod (seq 0 beams) (seq 0 dbins)).
End Cfar.
