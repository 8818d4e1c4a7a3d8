(** Model of the reductions (src/ovxx/reductions/functors.hpp,
    reductions.hpp, reductions_idx.hpp): the generic evaluators.
    Simplifications: exact arithmetic (a commutative ring; the division of
    the means is a function [divn] of the sum and the number of elements);
    serial views; a block is its get() and its sizes. *)
From Coq Require Import ZArith List Lia Bool Arith.
From Verif Require Import Base.
Import ListNotations.
Local Open Scope nat_scope.

(** ** Value reductions *)
Section Value.
Context {A S R : Type}.
(** A reduction functor R<T>. *)
Record functor := { initial : S; update : S -> A -> S; value : S -> nat -> R; done : S -> bool }.
Variable F : functor.

(** reductions.hpp 265-269 and the innermost loops of 326-330, 358-362:
    [for (i = 0; i < n; ++i) { state = update(...); if (done(state)) break; }]. *)
Fixpoint brk_loop (get : nat -> option A) (i n : nat) (s : S) : option S :=
  match n with
  | 0 => Some s
  | Datatypes.S n' => x <- get i ;; let s' := update F s x in if done F s' then Some s' else brk_loop get (i + 1) n' s'
  end.
(** reductions.hpp 237-271 (every case but long single-precision sums). *)
Definition reduce1 (get : list nat -> option A) (n : nat) : option R :=
  s <- brk_loop (fun i => get [i]) 0 n (initial F) ;; Some (value F s n).
(** reductions.hpp 305-334; [d1 d2]: the block's dimension order.  The
    break leaves the inner loop only. *)
Definition reduce2 (d1 d2 : nat) (get : list nat -> option A) (ext : list nat) : option R :=
  s <- loop (fun x s => brk_loop (fun y => get (lset (lset [0;0] d1 x) d2 y)) 0 (nth d2 ext 0) s) 0 (nth d1 ext 0) (initial F) ;;
  Some (value F s (nth 0 ext 0 * nth 1 ext 0)).
(** reductions.hpp 336-366. *)
Definition reduce3 (d1 d2 d3 : nat) (get : list nat -> option A) (ext : list nat) : option R :=
  s <- loop (fun x s =>
         loop (fun y s => brk_loop (fun z => get (lset (lset (lset [0;0;0] d1 x) d2 y) d3 z)) 0 (nth d3 ext 0) s)
              0 (nth d2 ext 0) s) 0 (nth d1 ext 0) (initial F) ;;
  Some (value F s (nth 0 ext 0 * nth 1 ext 0 * nth 2 ext 0)).
(** The dispatch on order_type and dim_type. *)
Definition reduce (o : list nat) (get : list nat -> option A) (ext : list nat) : option R :=
  match o, ext with
  | [0], [n] => reduce1 get n
  | [d1; d2], [_; _] => reduce2 d1 d2 get ext
  | [d1; d2; d3], [_; _; _] => reduce3 d1 d2 d3 get ext
  | _, _ => None
  end.
End Value.
Arguments functor : clear implicits.

(** functors.hpp 103-122, 169-188: sum and mean. *)
Definition Sum_value (K : CRing) : functor K K K :=
  {| initial := r0; update := fun s x => radd s x; value := fun s _ => s; done := fun _ => false |}.
Definition Mean_value {R} (K : CRing) (divn : K -> nat -> R) : functor K K R :=
  {| initial := r0; update := fun s x => radd s x; value := divn; done := fun _ => false |}.
(** 246-264: sum of squares (of complex squares for complex values). *)
Definition Sum_sq_value (K : CRing) : functor K K K :=
  {| initial := r0; update := fun s x => radd s (rmul x x); value := fun s _ => s; done := fun _ => false |}.
(** 136-155, 208-226: [magsq] is x*x, or re*re+im*im for complex values. *)
Definition Mean_magsq_value {A R} (K : CRing) (magsq : A -> K) (divn : K -> nat -> R) : functor A K R :=
  {| initial := r0; update := fun s x => radd s (magsq x); value := divn; done := fun _ => false |}.
Definition Sum_magsq_value {A} (K : CRing) (magsq : A -> K) : functor A K K :=
  {| initial := r0; update := fun s x => radd s (magsq x); value := fun s _ => s; done := fun _ => false |}.
(** 228-244: number of true values. *)
Definition Sum_bool : functor bool nat nat :=
  {| initial := 0; update := fun (s : nat) (x : bool) => s + (if x then 1 else 0); value := fun s _ => s; done := fun _ => false |}.

(** 30-46, 66-82: integers as two's-complement values; [ones] is ~T()
    converted to T, [cmp] the value ~T() that state is compared with (for
    types narrower than int it is the int -1, which no state equals). *)
Definition All_true (ones : Z) : functor Z Z Z :=
  {| initial := ones; update := Z.land; value := fun s _ => s; done := fun s => Z.eqb s 0 |}.
Definition Any_true (cmp : Z) : functor Z Z Z :=
  {| initial := 0%Z; update := Z.lor; value := fun s _ => s; done := fun s => Z.eqb s cmp |}.
(** 48-64, 84-101. *)
Definition All_true_bool : functor bool bool bool :=
  {| initial := true; update := andb; value := fun s _ => s; done := negb |}.
Definition Any_true_bool : functor bool bool bool :=
  {| initial := false; update := orb; value := fun s _ => s; done := fun s => s |}.

(** ** Long single-precision sums (reductions.hpp 272-301) *)
Section Long.
Context {K : CRing} {R : Type}.
(** reductions.hpp 162-192: [data += offset; result += data[i]]; the
    stride of the data is not used. *)
Definition partial_sum (sq : bool) (m : mem K) (data : Z) (offset len : nat) : option K :=
  loop (fun i s => x <- mload m (data + Z.of_nat (offset + i))%Z ;; Some (radd s (if sq then rmul x x else x))) 0 len r0.
(** reductions.hpp 29. *)
Definition max_length : nat := 4096.
Definition subblocks (n : nat) : nat := if n mod max_length =? 0 then n / max_length else n / max_length + 1.
Definition last_size (n : nat) : nat := if n mod max_length =? 0 then max_length else n mod max_length.
Definition long_sum (sq : bool) (m : mem K) (data : Z) (n : nat) : option K :=
  s <- loop (fun b s => p <- partial_sum sq m data (b * max_length) max_length ;; Some (radd s p)) 0 (subblocks n - 1) r0 ;;
  p <- partial_sum sq m data ((subblocks n - 1) * max_length) (last_size n) ;;
  Some (radd s p).
(** reductions.hpp 237-303 for summations of single-precision values; the
    vector's elements are at [data + i * stride].  [extract] (148-160) is
    the identity, or the real part when the result is real. *)
Definition reduce1_float {S} (F : functor K S R) (sq mean : bool) (extract : K -> R) (divn : R -> nat -> R)
    (m : mem K) (data stride : Z) (n : nat) : option R :=
  if n <? max_length then
    reduce1 F (fun i => mload m (data + Z.of_nat (hd 0%nat i) * stride)%Z) n
  else
    s <- long_sum sq m data n ;;
    Some (if mean then divn (extract s) n else extract s).
End Long.

(** ** Reductions with index *)
Section Index.
Context {A K : Type}.
(** functors.hpp 276-411: [key] is the value itself, mag or magsq; [better]
    is > (Max_...) or < (Min_...).  next_value updates and reports. *)
Variable key : A -> K.
Variable better : K -> K -> bool.
Definition best_state := (K * list nat)%type.
Definition visit (get : list nat -> option A) (i : list nat) (s : best_state) : option best_state :=
  x <- get i ;; Some (if better (key x) (fst s) then (key x, i) else s).
Definition for2 {S} (n m : nat) (f : nat -> nat -> S -> option S) (s : S) : option S :=
  loop (fun x s => loop (f x) 0 m s) 0 n s.
Definition for3 {S} (n m p : nat) (f : nat -> nat -> nat -> S -> option S) (s : S) : option S :=
  loop (fun x s => loop (fun y s => loop (f x y) 0 p s) 0 m s) 0 n s.
(** reductions_idx.hpp 34-56, 60-89, 93-122, 126-338: one evaluator per
    dimension order; the search starts with the value at index zero. *)
Definition reduce_idx (o : list nat) (get : list nat -> option A) (ext : list nat) : option (K * list nat) :=
  let v := visit get in
  match ext, o with
  | [n0], [0] => x <- get [0] ;; loop (fun i => v [i]) 0 n0 (key x, [0])
  | [n0; n1], [0;1] => x <- get [0;0] ;; for2 n0 n1 (fun i j => v [i;j]) (key x, [0;0])
  | [n0; n1], [1;0] => x <- get [0;0] ;; for2 n1 n0 (fun j i => v [i;j]) (key x, [0;0])
  | [n0; n1; n2], [0;1;2] => x <- get [0;0;0] ;; for3 n0 n1 n2 (fun i j k => v [i;j;k]) (key x, [0;0;0])
  | [n0; n1; n2], [0;2;1] => x <- get [0;0;0] ;; for3 n0 n2 n1 (fun i k j => v [i;j;k]) (key x, [0;0;0])
  | [n0; n1; n2], [1;0;2] => x <- get [0;0;0] ;; for3 n1 n0 n2 (fun j i k => v [i;j;k]) (key x, [0;0;0])
  | [n0; n1; n2], [1;2;0] => x <- get [0;0;0] ;; for3 n1 n2 n0 (fun j k i => v [i;j;k]) (key x, [0;0;0])
  | [n0; n1; n2], [2;0;1] => x <- get [0;0;0] ;; for3 n2 n0 n1 (fun k i j => v [i;j;k]) (key x, [0;0;0])
  | [n0; n1; n2], [2;1;0] => x <- get [0;0;0] ;; for3 n2 n1 n0 (fun k j i => v [i;j;k]) (key x, [0;0;0])
  | _, _ => None
  end.
End Index.

(** * Specification *)
Definition in_ext (ext i : list nat) : Prop := Forall2 (fun x n => x < n) i ext.
(** A valid dimension order of the extent. *)
Definition order_of (o ext : list nat) : Prop :=
  match ext with
  | [_] => o = [0]
  | [_; _] => o = [0;1] \/ o = [1;0]
  | [_; _; _] => o = [0;1;2] \/ o = [0;2;1] \/ o = [1;0;2] \/ o = [1;2;0] \/ o = [2;0;1] \/ o = [2;1;0]
  | _ => False
  end.
(** The block's get() is defined on its extent and returns the elements [v]. *)
Definition holds {A} (get : list nat -> option A) (ext : list nat) (v : list nat -> A) : Prop :=
  forall i, in_ext ext i -> get i = Some (v i).
Definition size (ext : list nat) : nat := fold_right Nat.mul 1 ext.
(** The sum over all indices of an extent, dimension by dimension. *)
Fixpoint sum_over {K : CRing} (ext : list nat) (f : list nat -> K) : K :=
  match ext with [] => f [] | n :: r => sum (fun x => sum_over r (fun i => f (x :: i))) n end.
(** Index [i] comes before [j] in the order [o]. *)
Definition before (o i j : list nat) : Prop :=
  exists p, p < length o /\ nth (nth p o 0) i 0 < nth (nth p o 0) j 0 /\
    forall q, q < p -> nth (nth q o 0) i 0 = nth (nth q o 0) j 0.
(** How many indices carry a true value. *)
Definition all_indices (ext : list nat) : list (list nat) :=
  fold_right (fun n r => flat_map (fun x => map (cons x) r) (seq 0 n)) [[]] ext.
Definition count_true (ext : list nat) (v : list nat -> bool) : nat := length (filter v (all_indices ext)).
(** A strict order in which incomparable values are interchangeable. *)
Definition strict_weak {K} (better : K -> K -> bool) : Prop :=
  (forall x, better x x = false) /\
  (forall x y z, better x y = true -> better y z = true -> better x z = true) /\
  (forall x y z, better x y = false -> better y z = false -> better x z = false).
