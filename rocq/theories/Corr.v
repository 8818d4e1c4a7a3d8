(** Model of correlation (src/ovxx/signal/corr.hpp).
    Reference, input and output are blocks in memory given by the address of
    every element; accesses are checked.  Exact arithmetic: a commutative
    ring with any conjugation [conj] and division [div].  Unsigned
    differences that are compared are 64-bit; sums of sizes are taken not to
    wrap. *)
From Coq Require Import ZArith List Lia Bool Arith.
From Verif Require Import Base Fir Freqswap Conv.
Import ListNotations.
Local Open Scope nat_scope.

Inductive bias := biased | unbiased.

Section Corr.
Context {K : CRing} (conj : K -> K) (div : K -> K -> K).
Local Open Scope cr_scope.

(** The conversion sum_type(n) of an unsigned number. *)
Fixpoint of_nat (n : nat) : K := match n with O => 0 | S n => of_nat n + 1 end.
(** [n >= a - b] in unsigned arithmetic. *)
Definition ge_diff (n a b : nat) : bool := (u64 (Z.of_nat a - Z.of_nat b) <=? Z.of_nat n)%Z.

(** corr.hpp 91-134 and 217-263. *)
Definition corr_full1 (b : bias) (ref : block1) (M : nat) (inp : block1) (N : nat) (out : block1) (P : nat) (m : mem K) : option (mem K) :=
  assert (M <=? N)%nat ;;
  loop1 P out (fun n m =>
    M1 <- usub M 1 ;;
    s <- loop (fun k s =>
      if (M1 <=? n + k)%nat && (n + k <? N + M1)%nat
      then r <- get1 m ref k ;; x <- get1 m inp (n + k - M1)%nat ;; Some (s + r * conj x) else Some s) 0 M 0 ;;
    match b with
    | biased => Some s
    | unbiased =>
        if (n <? M1)%nat then Some (div s (of_nat (n + 1)))
        else if (N <=? n)%nat then Some (div s (of_nat (N + M - 1 - n)))
        else Some (div s (of_nat M))
    end) m.
(** corr.hpp 137-183 and 266-315. *)
Definition corr_same1 (b : bias) (ref : block1) (M : nat) (inp : block1) (N : nat) (out : block1) (P : nat) (m : mem K) : option (mem K) :=
  loop1 P out (fun n m =>
    s <- loop (fun k s =>
      if (M / 2 <=? n + k)%nat && (n + k <? N + M / 2)%nat
      then r <- get1 m ref k ;; x <- get1 m inp (n + k - M / 2)%nat ;; Some (s + r * conj x) else Some s) 0 M 0 ;;
    match b with
    | biased => Some s
    | unbiased =>
        if (n <? M / 2)%nat then Some (div s (of_nat (n + (M + 1) / 2)))
        else if ge_diff n N (M / 2) then Some (div s (of_nat (N - 1 + (M + 1) / 2 - n)))
        else Some (div s (of_nat M))
    end) m.
(** corr.hpp 186-215 and 318-351. *)
Definition corr_min1 (b : bias) (ref : block1) (M : nat) (inp : block1) (N : nat) (out : block1) (P : nat) (m : mem K) : option (mem K) :=
  loop1 P out (fun n m =>
    s <- loop (fun k s => r <- get1 m ref k ;; x <- get1 m inp (n + k)%nat ;; Some (s + r * conj x)) 0 M 0 ;;
    match b with biased => Some s | unbiased => Some (div s (of_nat M)) end) m.

(** corr.hpp 407-419: the scale of one dimension. *)
Definition scale_dim (M N shift edge r : nat) : K :=
  if (r <? shift)%nat then of_nat (r + (M - shift))
  else if ge_diff r N edge then of_nat (N + shift - r) else of_nat M.
(** corr.hpp 354-425 and 509-582. *)
Definition corr_base (b : bias) (ref : block2) (Mr Mc row_shift col_shift row_edge col_edge : nat)
    (inp : block2) (Nr Nc : nat) (out : block2) (Pr Pc : nat) (m : mem K) : option (mem K) :=
  assert (Mr <=? Nr)%nat ;; assert (Mc <=? Nc)%nat ;;
  loop2 Pr Pc out (fun r c m =>
    s <- loop (fun rr s => loop (fun cc s =>
      if (row_shift <=? r + rr)%nat && (r + rr <? Nr + row_shift)%nat && (col_shift <=? c + cc)%nat && (c + cc <? Nc + col_shift)%nat
      then w <- get2 m ref rr cc ;; x <- get2 m inp (r + rr - row_shift)%nat (c + cc - col_shift)%nat ;; Some (s + w * conj x)
      else Some s) 0 Mc s) 0 Mr 0 ;;
    match b with
    | biased => Some s
    | unbiased => Some (div s (1 * scale_dim Mr Nr row_shift row_edge r * scale_dim Mc Nc col_shift col_edge c))
    end) m.

(** corr.hpp 612-625 and 663-727: output size, checks, choice of the region
    ([normalize] keeps the sizes).  The data accesses require only array
    storage, so the kernels see the blocks' own strides. *)
Definition corr_size (R : support) (M N : nat) : Z := conv_dim_output_size R (Z.of_nat M) (Z.of_nat N) 1.
Definition correlate1 (R : support) (M N : nat) (b : bias) (ref inp out : block1) (m : mem K) : option (mem K) :=
  assert (len ref =? M)%nat ;; assert (len inp =? N)%nat ;; assert (Z.of_nat (len out) =? corr_size R M N)%Z ;;
  match R with
  | support_full => corr_full1 b ref M inp N out (len out) m
  | support_same => corr_same1 b ref M inp N out (len out) m
  | support_min => corr_min1 b ref M inp N out (len out) m
  end.
(** corr.hpp 428-506 and 729-786. *)
Definition correlate2 (R : support) (Mr Mc Nr Nc : nat) (b : bias) (ref inp out : block2) (m : mem K) : option (mem K) :=
  assert (rows ref =? Mr)%nat ;; assert (cols ref =? Mc)%nat ;; assert (rows inp =? Nr)%nat ;; assert (cols inp =? Nc)%nat ;;
  assert (Z.of_nat (rows out) =? corr_size R Mr Nr)%Z ;; assert (Z.of_nat (cols out) =? corr_size R Mc Nc)%Z ;;
  match R with
  | support_full =>
      r1 <- usub Mr 1 ;; c1 <- usub Mc 1 ;;
      corr_base b ref Mr Mc r1 c1 0 0 inp Nr Nc out (rows out) (cols out) m
  | support_same => corr_base b ref Mr Mc (Mr / 2) (Mc / 2) (Mr / 2) (Mc / 2) inp Nr Nc out (rows out) (cols out) m
  | support_min => corr_base b ref Mr Mc 0 0 0 0 inp Nr Nc out (rows out) (cols out) m
  end.

(** * Specification *)
(** Number of places the reference starts to the left of output 0. *)
Definition lead (R : support) (M : nat) : nat := match R with support_full => M - 1 | support_same => M / 2 | support_min => 0 end%nat.
Definition places (R : support) (M N : nat) : nat := match R with support_full => N + M - 1 | support_same => N | support_min => N - M + 1 end%nat.
(** Reference element k lies over input element j when the reference is at n. *)
Definition meets (s n k j : nat) : bool := (n + k =? j + s)%nat.
Definition corr_at (M N s : nat) (ref x : nat -> K) (n : nat) : K :=
  sum (fun k => sum (fun j => if meets s n k j then ref k * conj (x j) else 0) N) M.
Definition corr_at2 (Mr Mc Nr Nc sr sc : nat) (ref x : nat -> nat -> K) (p q : nat) : K :=
  sum (fun k => sum (fun l => sum (fun i => sum (fun j =>
    if meets sr p k i && meets sc q l j then ref k l * conj (x i j) else 0) Nc) Nr) Mc) Mr.
(** Number of terms of that sum. *)
Definition overlap (M N s n : nat) : nat := length (List.filter (fun kj => meets s n (fst kj) (snd kj)) (list_prod (seq 0 M) (seq 0 N))).
Definition scaled (b : bias) (s : K) (terms : nat) : K := match b with biased => s | unbiased => div s (of_nat terms) end.
End Corr.
