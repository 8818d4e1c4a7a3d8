(** Model of the random number generators (src/vsip/random.hpp).
    [unsigned int] is 32 bits wide.  Numbers of type T are exact rationals;
    the rounding of float is treated separately.  Loops whose counter is a
    32-bit number that never reaches a 64-bit bound do not end: None. *)
From Coq Require Import ZArith QArith List Lia Bool Arith SpecFloat.
From Verif Require Import Base.
Import ListNotations.
Local Open Scope Z_scope.

Definition W32 : Z := 2 ^ 32.
Definition u32 (x : Z) : Z := x mod W32.

(** random.hpp 63-65. *)
Definition A0 : Z := 1664525.
Definition C0 : Z := 1013904223.
Definition A1 : Z := 69069.
(** random.hpp 123-134. *)
Definition primes : list Z :=
  [3; 5; 7; 11; 13; 17; 19; 23; 29; 31; 37; 41; 43; 47; 53; 59; 61; 67; 71; 73;
   79; 83; 89; 97; 101; 103; 107; 109; 113; 127; 131; 137; 139; 149; 151; 157; 163; 167; 173; 179;
   181; 191; 193; 197; 199; 211; 223; 227; 229; 233; 239; 241; 251; 257; 263; 269; 271; 277; 281; 283;
   293; 307; 311; 313; 317; 331; 337; 347; 349; 353; 359; 367; 373; 379; 383; 389; 397; 401; 409; 419;
   421; 431; 433; 439; 443; 449; 457; 461; 463; 467; 479; 487; 491; 499; 503; 509; 521; 523; 541; 547].

(** random.hpp 45-54. *)
Record rand := { a_ : Z; c_ : Z; a1_ : Z; c1_ : Z; X_ : Z; X1_ : Z; X2_ : Z; portable_ : bool }.

Definition times (n : Z) {A} (f : A -> A) (x : A) : A := Nat.iter (Z.to_nat n) f x.

(** random.hpp 80-84: the loop does not end for k0 = 0. *)
Fixpoint strip (fuel : nat) (k0 n : Z) : option (Z * Z) :=
  match fuel with
  | O => None
  | S fuel => if k0 mod 2 =? 0 then strip fuel (k0 / 2) (u32 (n + 1)) else Some (k0, n)
  end.
(** random.hpp 70-117. *)
Definition make_nonportable (seed numprocs id : Z) : option rand :=
  assert (id <? W32) ;;
  let x0 := times id (fun x => u32 (A0 * x + C0)) (u32 seed) in
  let k := u32 numprocs in
  kn <- strip 33 k 0 ;;
  let '(k0, n) := kn in
  let a := times (u32 (k - 1)) (fun a => u32 (a * A0)) A0 in
  let t := times k0 (fun t => u32 (t * A0)) 1 in
  let '(c, _) := times n (fun '(c, t) => (u32 (c * u32 (t + 1)), u32 (t * t))) (1, t) in
  let '(t, _) := times (k0 - 1) (fun '(t, n) => (u32 (t + n), u32 (n * A0))) (1, A0) in
  let c := u32 (c * u32 (t * C0)) in
  Some {| a_ := a; c_ := c; a1_ := 0; c1_ := 0; X_ := x0; X1_ := 0; X2_ := 0; portable_ := false |}.
(** random.hpp 118-173. *)
Definition make_portable (seed numprocs id : Z) : option rand :=
  assert (id <=? 100) ;;
  c1 <- nth_error primes (Z.to_nat (id - 1)) ;;
  let x0 := u32 seed in let k := u32 numprocs in
  x <- (if 1 <? id then
          assert (negb (k =? 0)) ;;
          let skip := u32 ((4294967295 / k) * (id - 1)) in
          let '(_, _, _, x) := times 32 (fun '(mask, a0, c0, x) =>
             (u32 (Z.shiftl mask 1), u32 (a0 * a0), u32 (u32 (a0 + 1) * c0),
              if Z.land mask skip =? 0 then x else u32 (a0 * x + c0))) (1, A0, C0, x0) in
          Some x
        else Some x0) ;;
  Some {| a_ := A0; c_ := C0; a1_ := A1; c1_ := c1; X_ := x; X1_ := 1; X2_ := 1; portable_ := true |}.
(** random.hpp 58-62. *)
Definition make (portable : bool) (seed numprocs id : Z) : option rand :=
  assert (0 <? id) ;; if portable then make_portable seed numprocs id else make_nonportable seed numprocs id.

(** random.hpp 216-242 (also the bodies of the loops of randn and
    randn_complex): the 32-bit number and the new state. *)
Definition draw (g : rand) : Z * rand :=
  if portable_ g then
    let X := u32 (X_ g * a_ g + c_ g) in
    let X1 := u32 (X1_ g * a1_ g + c1_ g) in
    let itemp := u32 (X - X1) in
    let '(X1, X2) := if X1 =? X2_ g then (u32 (X1 + 1), u32 (X2_ g + 1)) else (X1, X2_ g) in
    (itemp, {| a_ := a_ g; c_ := c_ g; a1_ := a1_ g; c1_ := c1_ g; X_ := X; X1_ := X1; X2_ := X2; portable_ := true |})
  else
    let X := u32 (a_ g * X_ g + c_ g) in
    (X, {| a_ := a_ g; c_ := c_ g; a1_ := a1_ g; c1_ := c1_ g; X_ := X; X1_ := X1_ g; X2_ := X2_ g; portable_ := false |}).
Definition unit_of (x : Z) : Q := x # 4294967296.
Definition randu (g : rand) : Q * rand := let '(x, g) := draw g in (unit_of x, g).
(** The accumulation loops. *)
Definition accumulate (n : nat) (g : rand) : Q * rand :=
  Nat.iter n (fun '(rp, g) => let '(x, g) := draw g in ((rp + unit_of x)%Q, g)) (0%Q, g).
(** random.hpp 176-214. *)
Definition randn (g : rand) : Q * rand :=
  let '(rp, g') := accumulate 12 g in ((if portable_ g then 6 - rp else rp - 6)%Q, g').
(** random.hpp 244-308. *)
Definition randn_complex (g : rand) : (Q * Q) * rand :=
  let '(real, g) := accumulate 3 g in let '(t2, g) := accumulate 3 g in
  ((3 - t2 - real, real - t2)%Q, g).
(** random.hpp 330-335. *)
Definition randu_complex (g : rand) : (Q * Q) * rand :=
  let '(re, g) := randu g in let '(im, g) := randu g in ((re, im), g).

(** T(x / 4294967296.0) for T = float (24-bit mantissa); the division of a
    32-bit number by 2^32 is exact in double. *)
Definition float_unit (x : Z) : spec_float := binary_normalize 24 128 x (-32) false.

(** random.hpp 346-355, 410-418: the vector randu(len) returns.  Reading an
    element calls the generator; the view holds no numbers. *)
Record uniform_view := { length_ : nat; rng : rand }.
Definition view_get (v : uniform_view) (i : nat) : option (Q * uniform_view) :=
  assert (i <? length_ v)%nat ;; let '(x, g) := randu (rng v) in Some (x, {| length_ := length_ v; rng := g |}).
(** Assigning it to a vector: one read per element, in order (loop fusion). *)
Definition assign_view (v : uniform_view) : option (list Q * uniform_view) :=
  loop (fun i '(l, v) => x <- view_get v i ;; let '(x, v) := x in Some (l ++ [x], v)) 0 (length_ v) ([], v).

(** * Specification *)
(** The one sequence: x_0 = seed, x_{n+1} = A0 x_n + C0 mod 2^32. *)
Fixpoint seq_x (seed : Z) (n : nat) : Z := match n with O => seed mod W32 | S n => (A0 * seq_x seed n + C0) mod W32 end.
(** State after [n] uniform numbers, and uniform number [n]. *)
Fixpoint after (n : nat) (g : rand) : rand := match n with O => g | S n => snd (randu (after n g)) end.
Definition output (g : rand) (n : nat) : Q := fst (randu (after n g)).
(** The second generator of the portable combination with adder [c]. *)
Fixpoint seq_y (c : Z) (n : nat) : Z * Z :=
  match n with
  | O => (1, 1)
  | S n => let '(y, z) := seq_y c n in let y' := (A1 * y + c) mod W32 in
           if y' =? z then ((y' + 1) mod W32, (z + 1) mod W32) else (y', z)
  end.
