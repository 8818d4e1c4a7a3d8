(** Model of the histogram (src/vsip/impl/signal/histo.hpp).
    The sample type is a parameter: exact reals (rationals), 32-bit signed
    integers, or IEEE single precision.  Counters are 32-bit [int]s;
    signed overflow, division by zero and out-of-range bins are [None]. *)
From Coq Require Import ZArith QArith Qround List Lia Bool Arith.
From Coq Require Import SpecFloat.
From Verif Require Import Base.
Import ListNotations.
Local Open Scope nat_scope.

(** The operations hist_bin uses on the sample type T. *)
Record sample_type := {
  T :> Type;
  ltb : T -> T -> bool;
  sub : T -> T -> option T;
  divt : T -> T -> option T;
  (** T / length_type, converted to T *)
  divl : T -> nat -> option T;
  (** (index_type)(x + 1) *)
  index1 : T -> option Z }.

(** Real numbers, exactly. *)
Definition reals : sample_type := {|
  T := Q; ltb := fun x y => negb (Qle_bool y x); sub := fun x y => Some (x - y)%Q;
  divt := fun x y => if Qeq_bool y 0 then None else Some (x / y)%Q;
  divl := fun x n => if n =? 0 then None else Some (x / inject_Z (Z.of_nat n))%Q;
  index1 := fun x => Some (Qfloor (x + 1)) |}.
(** int: signed overflow is undefined; int / unsigned long converts the
    (here non-negative) int to unsigned long. *)
Definition fits32 (x : Z) : bool := ((- 2 ^ 31 <=? x) && (x <? 2 ^ 31))%Z.
Definition checked (x : Z) : option Z := if fits32 x then Some x else None.
Definition ints : sample_type := {|
  T := Z; ltb := Z.ltb; sub := fun x y => checked (x - y);
  divt := fun x y => if (y =? 0)%Z then None else checked (Z.quot x y);
  divl := fun x n => if n =? 0 then None else Some (u64 x / Z.of_nat n)%Z;
  index1 := fun x => x1 <- checked (x + 1) ;; Some (u64 x1) |}.
(** float. *)
Definition fprec := 24%Z.
Definition femax := 128%Z.
Definition f_of_Z (n : Z) : spec_float := binary_normalize fprec femax n 0 false.
Definition f_trunc (x : spec_float) : option Z :=
  match x with
  | S754_zero _ => Some 0%Z
  | S754_finite false m e => Some (if (0 <=? e)%Z then Z.pos m * 2 ^ e else Z.pos m / 2 ^ (- e))%Z
  | _ => None
  end.
Definition floats : sample_type := {|
  T := spec_float; ltb := SFltb; sub := fun x y => Some (SFsub fprec femax x y);
  divt := fun x y => Some (SFdiv fprec femax x y);
  divl := fun x n => Some (SFdiv fprec femax x (f_of_Z (Z.of_nat n)));
  index1 := fun x => f_trunc (SFadd fprec femax x (f_of_Z 1)) |}.

Section Histo.
Variable A : sample_type.

(** histo.hpp 21-28. *)
Definition hist_bin (mn mx delta : A) (num : nat) (value : A) : option Z :=
  if ltb A value mn then Some 0%Z
  else if negb (ltb A value mx) then Some (Z.of_nat num - 1)%Z
  else d <- sub A value mn ;; q <- divt A d delta ;; index1 A q.
(** histo.hpp 44-45 and 63-64: hist.put(n, hist.get(n) + 1). *)
Definition bump (hist : list Z) (n : Z) : option (list Z) :=
  assert (0 <=? n)%Z ;; c <- bget hist (Z.to_nat n) ;; c1 <- checked (c + 1) ;; bput hist (Z.to_nat n) c1.
(** histo.hpp 33-48. *)
Definition accumulate1 (mn mx : A) (hist : list Z) (input : list A) : option (list Z) :=
  let num := length hist in
  d <- sub A mx mn ;; delta <- divl A d (num - 2) ;;
  loop (fun i hist => v <- bget input i ;; n <- hist_bin mn mx delta num v ;; bump hist n) 0 (length input) hist.
(** histo.hpp 50-66; the matrix is a list of rows with [c] columns. *)
Definition accumulate2 (mn mx : A) (hist : list Z) (input : list (list A)) (c : nat) : option (list Z) :=
  let num := length hist in
  d <- sub A mx mn ;; delta <- divl A d (num - 2) ;;
  loop (fun i hist => loop (fun j hist =>
      r <- bget input i ;; v <- bget r j ;; n <- hist_bin mn mx delta num v ;; bump hist n) 0 c hist) 0 (length input) hist.

(** histo.hpp 166-169. *)
Record histogram := { min_ : A; max_ : A; hist_ : list Z }.
(** histo.hpp 107-115. *)
Definition make_histogram (mn mx : A) (num_bin : nat) : option histogram :=
  assert (ltb A mn mx) ;; assert (3 <=? num_bin) ;; Some {| min_ := mn; max_ := mx; hist_ := repeat 0%Z num_bin |}.
(** histo.hpp 120-130. *)
Definition make_histogram_from (mn mx : A) (hist : list Z) : option histogram :=
  assert (ltb A mn mx) ;; assert (3 <=? length hist) ;; Some {| min_ := mn; max_ := mx; hist_ := hist |}.
(** The argument of a call: a vector, or a matrix given by its rows. *)
Inductive samples := vec (v : list A) | mat (r : list (list A)) (c : nat).
(** histo.hpp 137-164. *)
Definition call (h : histogram) (acc : bool) (x : samples) : option histogram :=
  let h0 := if acc then hist_ h else map (fun _ => 0%Z) (hist_ h) in
  h1 <- (match x with
         | vec v => accumulate1 (min_ h) (max_ h) h0 v
         | mat r c => accumulate2 (min_ h) (max_ h) h0 r c
         end) ;;
  Some {| min_ := min_ h; max_ := max_ h; hist_ := h1 |}.
Fixpoint calls (h : histogram) (l : list (bool * samples)) : option histogram :=
  match l with [] => Some h | (acc, x) :: r => h <- call h acc x ;; calls h r end.

(** * Specification *)
(** All samples of one argument. *)
Definition all_samples (x : samples) : list A := match x with vec v => v | mat r c => concat r end.
(** A matrix has rows of equal length. *)
Definition shape_ok (x : samples) : Prop := match x with vec _ => True | mat r c => Forall (fun w => length w = c) r end.
(** The samples that count after a sequence of calls: those since the last
    call without accumulation; [start] were counted before. *)
Definition counted (start : list A) (l : list (bool * samples)) : list A :=
  fold_left (fun s c => (if fst c : bool then s else []) ++ all_samples (snd c)) l start.
End Histo.
Arguments hist_ {A}.
Arguments vec {A}.
Arguments mat {A}.

(** The bins: bin 0 is below [mn], bin [num]-1 is at or above [mx], and the
    bins between divide [mn, mx) into num-2 equal half-open intervals. *)
Definition Qlt_bool (x y : Q) : bool := negb (Qle_bool y x).
Definition edge (mn mx : Q) (num k : nat) : Q := (mn + inject_Z (Z.of_nat k) * ((mx - mn) / inject_Z (Z.of_nat (num - 2))))%Q.
Definition in_bin (mn mx : Q) (num n : nat) (v : Q) : bool :=
  if n =? 0 then Qlt_bool v mn
  else if n =? num - 1 then Qle_bool mx v
  else Qle_bool mn v && Qlt_bool v mx && Qle_bool (edge mn mx num (n - 1)) v && Qlt_bool v (edge mn mx num n).
Definition count (mn mx : Q) (num n : nat) (l : list Q) : Z := Z.of_nat (length (filter (in_bin mn mx num n) l)).
