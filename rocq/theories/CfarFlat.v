(** The CFAR kernel that works on pointers, t_cfar_by_vector_c of benchmarks/hpec_kernel/cfar_c.cpp, on one processor.  The steps
    at a gate are those of the kernel by vectors (Cfar.v: [first1], [middle1], [last1]), letter for letter but for the
    way the squares are read; what differs is the memory. *)
From Coq Require Import ZArith List Bool Arith.
From Verif Require Import Base Cfar.
Import ListNotations.
Local Open Scope nat_scope.

Section CfarFlat.
Context {R : CRing}.
Variable hit : R -> R -> nat -> bool.
(** cfar_c.cpp 241-248: the elements of the cube from data_cube.ptr() on, and its extents; the rest as in Cfar.v. *)
Variable mem : nat -> R.
Variables beams dbins gates c g columns : nat.

(** p_cube[aa], with p_cube at [off]: inside the cube. *)
Definition read (off aa : nat) : option R := assert (off + aa <? beams * dbins * gates) ;; Some (mem (off + aa)).
(** p_cpow[k]: cpow(0, 0, whole_domain), of [gates] elements (243-245). *)
Definition power (buf : nat -> R) (k : nat) : option R := assert (k <? gates) ;; Some (buf k).
(** 258-259: the squares. *)
Definition squares (off : nat) (buf : nat -> R) : option (nat -> R) :=
  loop (fun aa buf => x <- read off aa ;; Some (fun k => if k =? aa then rmul x x else buf k)) 0 gates buf.
(** The pointer p_cube, the memory at p_cpow, the targets. *)
Definition cstate := (nat * (nat -> R) * found)%type.
(** 256-328: one beam and bin; p_cube += gates (260). *)
Definition vectorc (i j : nat) (st : cstate) : option cstate :=
  let '(off, buf, F) := st in
  buf <- squares off buf ;;
  s <- loop (first1 hit gates c g columns (power buf) (i, j)) 0 (g + c + 1) (r0, F) ;;
  s <- loop (middle1 hit gates c g columns (power buf) (i, j)) (g + c + 1) (gates - (g + c) - (g + c + 1)) s ;;
  s <- loop (last1 hit gates c g columns (power buf) (i, j)) (gates - (g + c)) (g + c) s ;;
  Some (off + gates, buf, snd s).
(** 234-330: [buf] is what cpow happens to hold. *)
Definition by_pointer (buf : nat -> R) : option found :=
  st <- loop (fun i st => loop (fun j st => vectorc i j st) 0 dbins st) 0 beams (0, buf, fun _ => []) ;;
  Some (snd st).
End CfarFlat.
