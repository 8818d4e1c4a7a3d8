(** Model of the FIR filter (src/ovxx/signal/fir.hpp; the operator() and
    constructors of src/vsip/impl/signal/fir.hpp).
    Simplifications: exact arithmetic (a commutative ring); unsigned
    subtractions and sub-vector bounds are checked ([None] instead of
    wrapping or reading outside); input and output do not overlap. *)
From Coq Require Import ZArith List Lia Bool Arith.
From Verif Require Import Base.
Import ListNotations.
Local Open Scope nat_scope.

Inductive symmetry := nonsym | sym_even_len_odd | sym_even_len_even.

(** Unsigned a - b, checked. *)
Definition usub (a b : nat) : option nat := if b <=? a then Some (a - b) else None.
(** A loop with an arbitrary condition; [None] when the fuel is used up. *)
Fixpoint while {S} (fuel : nat) (c : S -> bool) (body : S -> option S) (s : S) : option S :=
  match fuel with
  | 0 => None
  | Datatypes.S f => if c s then s' <- body s ;; while f c body s' else Some s
  end.

(** fir.hpp 26-27 (order), 29-38 (constructor). *)
Definition order (S : symmetry) (k : nat) : option nat :=
  match S with nonsym => Some k | sym_even_len_odd => usub (k * 2) 1 | sym_even_len_even => Some (k * 2) end.

Section Fir.
Context {K : CRing}.
Local Open Scope cr_scope.

Record backend := { input_size : nat; output_size : nat; order_ : nat; decimation : nat }.
Definition make_backend (S : symmetry) (i k d : nat) : option backend :=
  o <- order S k ;; m <- usub o 1 ;;
  assert (0 <? i)%nat ;; assert (0 <? d)%nat ;; assert (d <? m + 1)%nat ;; assert (m <=? i)%nat ;;
  Some {| input_size := i; output_size := (i + d - 1) / d; order_ := m; decimation := d |}.

(** The element values of a sub-vector Domain<1>(off, 1, len). *)
Definition sub (l : list K) (off len : nat) : option (list K) :=
  assert (off + len <=? length l)%nat ;; Some (firstn len (skipn off l)).
(** dot (src/vsip/impl/matvec.hpp 106-121). *)
Definition dot (a b : list K) : option K :=
  assert (length a =? length b)%nat ;; loop (fun k s => x <- bget a k ;; y <- bget b k ;; Some (s + x * y)) 0 (length a) 0.

Record fir := { base : backend; skip_ : nat; kernel_ : list K; state_ : list K; state_saved_ : nat }.

(** fir.hpp 73-89: the kernel is unpacked backwards into [kernel_]; half
    kernels are also copied forwards.  Every element of [kernel_] is written,
    so its initial value does not matter. *)
Definition unpack (S : symmetry) (m k : nat) (tmp : list K) : option (list K) :=
  a <- loop (fun j a => x <- bget tmp j ;; p <- usub m j ;; bput a p x) 0 k (repeat 0 (m + 1)) ;;
  match S with
  | nonsym => Some a
  | _ => loop (fun j a => x <- bget tmp j ;; bput a j x) 0 k a
  end.
Definition make_fir (S : symmetry) (kernel : list K) (i d : nat) : option fir :=
  let k := length kernel in
  b <- make_backend S i k d ;;
  assert ((match S with nonsym => 1 | _ => 0 end) <? k)%nat ;;
  a <- unpack S (order_ b) k kernel ;;
  Some {| base := b; skip_ := 0; kernel_ := a; state_ := repeat 0 (order_ b + 1); state_saved_ := 0 |}.

(** fir.hpp 100-160; [save] is C == state_save.  Returns the filter, the
    output vector and the number of outputs. *)
Definition apply (save : bool) (f : fir) (input output : list K) : option (fir * list K * nat) :=
  let dec := decimation (base f) in let m := order_ (base f) in let n := input_size (base f) in
  let skip := skip_ f in let saved := state_saved_ f in
  ms <- usub m skip ;;
  r <- while (Datatypes.S m) (fun '(oix, i, out) => i <? ms)%nat
         (fun '(oix, i, out) =>
            ko <- usub ms i ;;
            k <- sub (kernel_ f) ko (i + skip + 1) ;;
            x <- sub input 0 (i + skip + 1) ;;
            sum <- dot k x ;;
            sum <- (if save && (i <? saved)%nat then
                      len <- usub saved i ;;
                      k <- sub (kernel_ f) 0 len ;; s <- sub (state_ f) i len ;; d <- dot k s ;; Some (sum + d)
                    else Some sum) ;;
            out <- bput out oix sum ;;
            Some (oix + 1, i + dec, out)%nat)
         (0, 0, output)%nat ;;
  let '(oix, i, out) := r in
  start <- usub i ms ;;
  r <- while (Datatypes.S n) (fun '(oix, start, out) => start + m <? n)%nat
         (fun '(oix, start, out) =>
            x <- sub input start (m + 1) ;; sum <- dot (kernel_ f) x ;; out <- bput out oix sum ;;
            Some (oix + 1, start + dec, out)%nat)
         (oix, start, out) ;;
  let '(oix, start, out) := r in
  if save then
    skip' <- usub (start + m) n ;;
    assert (negb (n mod dec =? 0) || (skip' =? 0))%nat ;;
    new_save <- usub n start ;;
    x <- sub input start new_save ;;
    assert (new_save <=? length (state_ f))%nat ;;
    Some ({| base := base f; skip_ := skip'; kernel_ := kernel_ f; state_ := x ++ skipn new_save (state_ f); state_saved_ := new_save |}, out, oix)
  else Some (f, out, oix).

(** vsip/impl/signal/fir.hpp 104-136: operator(). *)
Definition filter (save : bool) (f : fir) (input output : list K) : option (fir * list K * nat) :=
  assert (length input =? input_size (base f))%nat ;; assert (length output =? output_size (base f))%nat ;;
  apply save f input output.
(** fir.hpp 162-166. *)
Definition reset (f : fir) : fir :=
  {| base := base f; skip_ := 0; kernel_ := kernel_ f; state_ := repeat 0 (length (state_ f)); state_saved_ := 0 |}.

(** A sequence of calls, each with its input block and output vector. *)
Fixpoint run (save : bool) (f : fir) (calls : list (list K * list K)) : option (fir * list (list K * nat)) :=
  match calls with
  | [] => Some (f, [])
  | (input, output) :: r =>
      x <- filter save f input output ;; let '(f', out, n) := x in
      y <- run save f' r ;; Some (fst y, (out, n) :: snd y)
  end.

(** fir.hpp 100-118: the sub-blocks through which apply() reads and writes
    strided data: the address of element [k] of the vector at [p]. *)
Definition strided_address (p stride : Z) (len : nat) (k : nat) : option Z :=
  let extent := (Z.abs stride * (Z.of_nat len - 1) + 1)%Z in
  let base := if (0 <? stride)%Z then p else (p - extent + 1)%Z in
  let first := if (0 <? stride)%Z then 0%Z else (extent - 1)%Z in
  let a := (first + Z.of_nat k * stride)%Z in
  assert ((0 <=? a) && (a <? extent))%Z ;; Some (base + a)%Z.

(** * Specification *)
(** The full kernel that a user's kernel stands for: itself, or the
    symmetric kernel of odd or even length that starts with it. *)
Definition full_kernel (S : symmetry) (k h : list K) : Prop :=
  match S with
  | nonsym => h = k
  | sym_even_len_odd => length h = (2 * length k - 1)%nat /\ firstn (length k) h = k /\ rev h = h
  | sym_even_len_even => length h = (2 * length k)%nat /\ firstn (length k) h = k /\ rev h = h
  end.
(** Sample [p] of the convolution of the signal [x] (zero before it starts)
    with [h]. *)
Definition conv_at (h x : list K) (p : nat) : K :=
  sum (fun j => nth j h 0 * (if (j <=? p)%nat then nth (p - j) x 0 else 0)) (length h).
(** What the calls returned, concatenated. *)
Definition outputs (r : list (list K * nat)) : list K := flat_map (fun p => firstn (snd p) (fst p)) r.
Definition ceil_div (n d : nat) : nat := (n + d - 1) / d.
End Fir.
Arguments fir : clear implicits.
