(** Clocks and timers (src/ovxx/{chrono.hpp,chrono.cpp,timer.hpp}), and a
    small specification. *)
From Coq Require Import ZArith List Lia Bool Arith QArith.
From Coq Require Import SpecFloat.
From Verif Require Import Base.
Import ListNotations.
Open Scope Z_scope.

(** nanoseconds::rep is a 64-bit signed integer; overflow is undefined. *)
Definition int64 (x : Z) : option Z := if (- 2 ^ 63 <=? x) && (x <? 2 ^ 63) then Some x else None.

(** ** high_resolution_clock::now() *)

(** OVXX_TIMER_POSIX (chrono.hpp 94-97): seconds and nanoseconds of
    CLOCK_MONOTONIC. *)
Definition now_posix (ts : Z * Z) : option Z :=
  s <- int64 (fst ts * 1000000000) ;; int64 (s + snd ts).

(** Single precision arithmetic (IEEE 754 binary32, round to nearest even),
    and the conversion of a float to the 64-bit integer: towards zero,
    undefined out of range. *)
Definition float_of (n : Z) : spec_float := binary_normalize 24 128 n 0 false.
Definition trunc (x : spec_float) : option Z :=
  match x with
  | S754_zero _ => Some 0
  | S754_finite s m e =>
    let n := if 0 <=? e then Z.pos m * 2 ^ e else Z.pos m / 2 ^ (- e) in
    int64 (if s then - n else n)
  | _ => None
  end.

(** init() (chrono.cpp 47-51): ticks per nanosecond from the clock rate in
    MHz. *)
Definition tics_per_nanosecond (mhz : spec_float) : spec_float := SFdiv 24 128 mhz (float_of 1000).

(** OVXX_TIMER_X64_TSC (chrono.hpp 102-105): the two halves of the counter,
    converted to float, divided. *)
Definition now_tsc (rate : spec_float) (hi lo : Z) : option Z :=
  trunc (SFdiv 24 128 (float_of (Z.lor (Z.shiftl hi 32) lo)) rate).

(** read_clock_rate() (chrono.cpp 13-26): the lines of /proc/cpuinfo as
    sscanf sees them: a rate in MHz; a line that ends before anything differs
    from the format, such as an empty one (sscanf gives EOF, which is not 0);
    any other line shorter than the buffer; any other line too long for it
    (getline fails from then on and leaves an empty text).  At the end of the
    file, and if there is no file, the text is empty as well. *)
Inductive line := Rate (mhz : spec_float) | Empty | Other | TooLong.
Fixpoint read_clock_rate (rate : spec_float) (file : list line) : spec_float :=
  match file with
  | [] => rate
  | Rate r :: _ => r
  | Empty :: _ => rate
  | TooLong :: _ => rate
  | Other :: file' => read_clock_rate rate file'
  end.
(** get_cpu_speed() without OVXX_CPU_SPEED (chrono.cpp 16, 28-35). *)
Definition get_cpu_speed (file : list line) : spec_float := read_clock_rate (float_of 1000) file.

(** init() (chrono.cpp 47-51), called by the constructor of the library object
    (library.cpp 64).  Before that the static member is 0. *)
Definition init (file : list line) : spec_float := tics_per_nanosecond (get_cpu_speed file).
Definition before_init : spec_float := S754_zero false.

(** ** timer (timer.hpp 16-33) *)

(** A timer used by a program.  Every call reads the clock; [now] is
    clock::now() and [R] what the hardware shows. *)
Inductive call := Restart | Elapsed.
Inductive answer := Point (ns : Z) | Seconds (s : Q).

Section TIMER.
Variable R : Type.
Variable now : R -> option Z.

(** elapsed() (l. 22-30, the branch for !OVXX_TIMER_SYSTEM): the difference of
    the time points (chrono.hpp 73-80), converted to double (chrono.hpp 62) and
    divided; the rounding is not modelled.  The other branch names a namespace
    cxx11 that does not exist. *)
Definition elapsed (start : Z) (r : R) : option Q :=
  t <- now r ;; d <- int64 (t - start) ;; Some (inject_Z d / inject_Z 1000000000)%Q.

(** restart() (l. 20-21) and elapsed(). *)
Fixpoint calls (start : Z) (h : list (call * R)) : option (list answer) :=
  match h with
  | [] => Some []
  | (Restart, r) :: h' => t <- now r ;; a <- calls t h' ;; Some (Point t :: a)
  | (Elapsed, r) :: h' => q <- elapsed start r ;; a <- calls start h' ;; Some (Seconds q :: a)
  end.

(** The constructor (l. 19), then the calls. *)
Definition timer (r0 : R) (h : list (call * R)) : option (list answer) :=
  t <- now r0 ;; calls t h.
End TIMER.

(** * Specification *)

(** A time as the system gives it, and its value in nanoseconds. *)
Definition a_time (ts : Z * Z) : Prop := 0 <= fst ts <= 9000000000 /\ 0 <= snd ts <= 999999999.
Definition nanosec (ts : Z * Z) : Z := fst ts * 1000000000 + snd ts.

(** What the call at reading [ts] has to give, if the last restart (or the
    construction) was at [s]. *)
Definition due (s : Z * Z) (c : call) (ts : Z * Z) : answer :=
  match c with
  | Restart => Point (nanosec ts)
  | Elapsed => Seconds (inject_Z (nanosec ts - nanosec s) / inject_Z 1000000000)
  end.

(** The reading at the last restart. *)
Fixpoint last_start (s : Z * Z) (h : list (call * (Z * Z))) : Z * Z :=
  match h with
  | [] => s
  | (Restart, t) :: h' => last_start t h'
  | (Elapsed, _) :: h' => last_start s h'
  end.

(** The clock never goes back. *)
Fixpoint forward (s : Z * Z) (h : list (call * (Z * Z))) : Prop :=
  match h with
  | [] => True
  | (_, t) :: h' => nanosec s <= nanosec t /\ forward t h'
  end.
