(** Theorems about clocks and timers. *)
From Coq Require Import ZArith List Lia Bool Arith QArith.
From Coq Require Import SpecFloat.
From Verif Require Import Base Timer TimerProofs.
Import ListNotations.
Open Scope Z_scope.

(** ** The clock of the system *)

(** Whatever the sequence of calls, every restart() gives the present time in
    nanoseconds and every elapsed() the seconds since the last restart() (or
    the construction). *)
Theorem C88_elapsed : forall h s, a_time s -> Forall (fun c => a_time (snd c)) h ->
  exists l, timer (Z * Z) now_posix s h = Some l /\ length l = length h /\
  forall k c t, nth_error h k = Some (c, t) -> nth_error l k = Some (due (last_start s (firstn k h)) c t).
Proof. exact timer_ok. Qed.
Print Assumptions C88_elapsed.

Example C88_elapsed_example :
  let s := (100, 999999999) in
  let h := [(Elapsed, (101, 0)); (Restart, (102, 5)); (Elapsed, (104, 500000005))] in
  a_time s /\ Forall (fun c => a_time (snd c)) h /\
  exists q1 q2, timer (Z * Z) now_posix s h = Some [Seconds q1; Point 102000000005; Seconds q2] /\
  (q1 == 1 # 1000000000)%Q /\ (q2 == 5 # 2)%Q.
Proof.
  cbv zeta. split; [unfold a_time; cbn; lia|]. split; [repeat constructor; cbn; lia|].
  do 2 eexists. split; [vm_compute; reflexivity|]. split; vm_compute; reflexivity.
Qed.

(** If the clock does not go back, no elapsed time is negative. *)
Theorem C88_nonnegative : forall h s, a_time s -> Forall (fun c => a_time (snd c)) h -> forward s h ->
  exists l, timer (Z * Z) now_posix s h = Some l /\ forall q, In (Seconds q) l -> (0 <= q)%Q.
Proof. exact timer_forward. Qed.
Print Assumptions C88_nonnegative.

Example C88_nonnegative_example : forward (1, 999999999) [(Elapsed, (2, 0)); (Restart, (2, 0)); (Elapsed, (2, 1))].
Proof. unfold nanosec; cbn. lia. Qed.

(** Two elapsed times with no restart from one to the other differ by the
    time between the calls, to the nanosecond. *)
Theorem C88_differences : forall h s k1 k2 t1 t2, a_time s -> Forall (fun c => a_time (snd c)) h ->
  (k1 <= k2)%nat -> nth_error h k1 = Some (Elapsed, t1) -> nth_error h k2 = Some (Elapsed, t2) ->
  (forall k c t, (k1 <= k <= k2)%nat -> nth_error h k = Some (c, t) -> c = Elapsed) ->
  exists l q1 q2, timer (Z * Z) now_posix s h = Some l /\
    nth_error l k1 = Some (Seconds q1) /\ nth_error l k2 = Some (Seconds q2) /\
    ((q2 - q1) * inject_Z 1000000000 == inject_Z (nanosec t2 - nanosec t1))%Q.
Proof. exact timer_differences. Qed.
Print Assumptions C88_differences.

Example C88_differences_example :
  exists q1 q2, timer (Z * Z) now_posix (3, 7) [(Restart, (3, 8)); (Elapsed, (3, 9)); (Elapsed, (4, 0))] =
    Some [Point 3000000008; Seconds q1; Seconds q2] /\
  ((q2 - q1) * inject_Z 1000000000 == inject_Z 999999991)%Q.
Proof. do 2 eexists. split; [vm_compute; reflexivity|]. vm_compute. reflexivity. Qed.

(** ** The time stamp counter *)

(** The rate is that of the first line that states one, if no line before it
    is empty or longer than 1023 characters. *)
Theorem C88_rate : forall before mhz after, (forall l, In l before -> l = Other) ->
  get_cpu_speed (before ++ Rate mhz :: after) = mhz.
Proof. intros before mhz after H. exact (rate_found before mhz after _ H). Qed.
Print Assumptions C88_rate.

Example C88_rate_example :
  get_cpu_speed [Other; Other; Rate (binary_normalize 24 128 3000 0 false); TooLong; Empty] =
  binary_normalize 24 128 3000 0 false.
Proof. vm_compute. reflexivity. Qed.

(** Defect: an empty or a long line before the rate, or no rate at all, and
    the clock silently assumes 1000 MHz: a processor at 3000 MHz then measures
    three seconds for each that passes (read_clock_rate() takes the EOF of
    sscanf for a success). *)
Theorem C88_rate_refuted :
  (forall mhz after, get_cpu_speed (Empty :: Rate mhz :: after) = binary_normalize 24 128 1000 0 false) /\
  (forall mhz after, get_cpu_speed (TooLong :: Rate mhz :: after) = binary_normalize 24 128 1000 0 false) /\
  now_tsc (init [Empty; Rate (binary_normalize 24 128 3000 0 false)]) 0 3000000000 = Some 3000000000 /\
  now_tsc (init [Rate (binary_normalize 24 128 3000 0 false)]) 0 3000000000 = Some 1000000000.
Proof. repeat split; vm_compute; reflexivity. Qed.
Print Assumptions C88_rate_refuted.

(** Defect: with the time stamp counter as clock short intervals cannot be
    measured, because the 64-bit counter is first converted to a float of 24
    bits.  At 1000 MHz (one tick per nanosecond), thirteen days after the start
    of the machine, 33 milliseconds measure as none at all, and two
    nanoseconds as 134 milliseconds. *)
Theorem C88_tsc_refuted :
  let rate := init [Rate (binary_normalize 24 128 1000 0 false)] in
  (exists s, timer (Z * Z) (fun r => now_tsc rate (fst r) (snd r)) (262144, 0) [(Elapsed, (262144, 33000000))] = Some [Seconds s] /\
     (s == 0)%Q) /\
  (exists s, timer (Z * Z) (fun r => now_tsc rate (fst r) (snd r)) (262144, 67108864) [(Elapsed, (262144, 67108866))] = Some [Seconds s] /\
     (s == 134217728 # 1000000000)%Q).
Proof.
  cbv zeta. split.
  - eexists. split; [vm_compute; reflexivity|]. vm_compute. reflexivity.
  - eexists. split; [vm_compute; reflexivity|]. vm_compute. reflexivity.
Qed.
Print Assumptions C88_tsc_refuted.

(** Limitation: before the library is initialised the counter cannot be read
    as time: the rate is still 0 and the conversion of the infinite quotient to
    an integer is undefined. *)
Theorem C88_before_init_refuted : forall hi lo, now_tsc before_init hi lo = None.
Proof. exact before_init_undefined. Qed.
Print Assumptions C88_before_init_refuted.
