(** * The scalar functions behind the elementwise view functions

    Model of src/vsip/impl/promotion.hpp and of the integer and algebraic
    functions of src/ovxx/math/scalar.hpp, as wrapped by the functors of
    src/ovxx/view/fns_elementwise.hpp:22-290.  Floating-point functions of the
    C library (sin, sqrt, ...) are not modelled. *)

From Coq Require Import ZArith List Bool Lia.
Require Import Verif.Base.
Import ListNotations.
Local Open Scope Z_scope.

(** ** Types and promotion *)

(** The arithmetic types of C++. *)
Inductive ty :=
| TBool | TChar | TSChar | TUChar | TShort | TUShort | TInt | TUInt
| TLong | TULong | TLLong | TULLong | TFloat | TDouble | TLDouble.

(** [Promotion<Left, Right>] (src/vsip/impl/promotion.hpp:19-63): the listed
    pairs, and [Left] for every other pair. *)
Definition promote (l r : ty) : ty :=
  match l, r with
  | TBool, TChar => TChar
  | TBool, TShort => TShort
  | TBool, TInt => TInt
  | TBool, TLong => TLong
  | TBool, TFloat => TFloat
  | TBool, TDouble => TDouble
  | TShort, TInt => TInt
  | TShort, TLong => TLong
  | TShort, TFloat => TFloat
  | TShort, TDouble => TDouble
  | TInt, TLong => TLong
  | TInt, TFloat => TFloat
  | TInt, TDouble => TDouble
  | TLong, TFloat => TFloat
  | TLong, TDouble => TDouble
  | TFloat, TDouble => TDouble
  | _, _ => l
  end.

(** [Promotion] on element types, scalar or [std::complex] (promotion.hpp:25-41):
    complex as soon as one side is. *)
Inductive ety := Re (t : ty) | Cx (t : ty).

Definition promote_e (l r : ety) : ety :=
  match l, r with
  | Re a, Re b => Re (promote a b)
  | Re a, Cx b | Cx a, Re b | Cx a, Cx b => Cx (promote a b)
  end.

(** ** Integer values in C++ (x86-64 Linux: [char] signed, [int] 32 bits, [long]
    and [long long] 64 bits)

    This is the language the functions are written in, not code of the
    library.  Signed overflow is undefined ([None]); conversion to a signed
    type wraps, as with every compiler in use. *)

Inductive ity :=
| Bool_ | Char_ | SChar | UChar | Short_ | UShort | Int_ | UInt
| Long_ | ULong | LLong | ULLong.

Definition tyof (t : ity) : ty :=
  match t with
  | Bool_ => TBool | Char_ => TChar | SChar => TSChar | UChar => TUChar
  | Short_ => TShort | UShort => TUShort | Int_ => TInt | UInt => TUInt
  | Long_ => TLong | ULong => TULong | LLong => TLLong | ULLong => TULLong
  end.

(** The integer type a [Promotion] of integer types names. *)
Definition ityof (t : ty) : option ity :=
  match t with
  | TBool => Some Bool_ | TChar => Some Char_ | TSChar => Some SChar
  | TUChar => Some UChar | TShort => Some Short_ | TUShort => Some UShort
  | TInt => Some Int_ | TUInt => Some UInt | TLong => Some Long_
  | TULong => Some ULong | TLLong => Some LLong | TULLong => Some ULLong
  | _ => None
  end.

Definition ipromote (a b : ity) : ity :=
  match ityof (promote (tyof a) (tyof b)) with
  | Some t => t
  | None => a
  end.

Definition width (t : ity) : Z :=
  match t with
  | Bool_ => 1
  | Char_ | SChar | UChar => 8
  | Short_ | UShort => 16
  | Int_ | UInt => 32
  | _ => 64
  end.

Definition is_signed (t : ity) : bool :=
  match t with
  | Char_ | SChar | Short_ | Int_ | Long_ | LLong => true
  | _ => false
  end.

Definition lo (t : ity) : Z := if is_signed t then - 2 ^ (width t - 1) else 0.
Definition hi (t : ity) : Z := if is_signed t then 2 ^ (width t - 1) - 1 else 2 ^ width t - 1.

(** [x] is a value of the type. *)
Definition fits (t : ity) (x : Z) : Prop := lo t <= x <= hi t.
Definition fitsb (t : ity) (x : Z) : bool := (lo t <=? x) && (x <=? hi t).

(** Conversion to a type. *)
Definition conv (t : ity) (x : Z) : Z :=
  match t with
  | Bool_ => if x =? 0 then 0 else 1
  | _ =>
    let m := x mod 2 ^ width t in
    if is_signed t && (2 ^ (width t - 1) <=? m) then m - 2 ^ width t else m
  end.

(** Conversion rank, integral promotion and the usual arithmetic conversions. *)
Definition rank (t : ity) : Z :=
  match t with
  | Int_ | UInt => 1 | Long_ | ULong => 2 | LLong | ULLong => 3 | _ => 0
  end.

Definition lift (t : ity) : ity := if rank t =? 0 then Int_ else t.

Definition unsigned_of (t : ity) : ity :=
  match t with Int_ => UInt | Long_ => ULong | LLong => ULLong | t => t end.

Definition common (a b : ity) : ity :=
  let a := lift a in
  let b := lift b in
  if Bool.eqb (is_signed a) (is_signed b)
  then if rank a <? rank b then b else a
  else
    let '(s, u) := if is_signed a then (a, b) else (b, a) in
    if rank s <=? rank u then u
    else if width u <? width s then s else unsigned_of s.

(** The value of an arithmetic operation carried out in the type [t]. *)
Definition arith (t : ity) (x : Z) : option Z :=
  if is_signed t then (if fitsb t x then Some x else None) else Some (conv t x).

(** ** The functions *)

(** [add], [sub], [mul] (src/ovxx/math/scalar.hpp:310-312, 421-427): [t1 op t2],
    converted to the promotion type on return. *)
Definition iop (f : Z -> Z -> Z) (a b : ity) (x y : Z) : option Z :=
  let c := common a b in
  r <- arith c (f (conv c x) (conv c y)) ;;
  Some (conv (ipromote a b) r).

Definition iadd := iop Z.add.
Definition isub := iop Z.sub.
Definition imul := iop Z.mul.

(** [div] (scalar.hpp:429-431): truncation; by zero undefined. *)
Definition idiv (a b : ity) (x y : Z) : option Z :=
  let c := common a b in
  assert (negb (conv c y =? 0)) ;;
  r <- arith c (Z.quot (conv c x) (conv c y)) ;;
  Some (conv (ipromote a b) r).

(** [band], [bor], [bxor] (scalar.hpp:316-322, 441-443). *)
Definition iband := iop Z.land.
Definition ibor := iop Z.lor.
Definition ibxor := iop Z.lxor.

(** [bnot] (scalar.hpp:40-42): [~t], on the promoted operand. *)
Definition ibnot (t : ity) (x : Z) : option Z :=
  r <- arith (lift t) (if is_signed (lift t) then Z.lnot x
                       else 2 ^ width (lift t) - 1 - x) ;;
  Some (conv t r).

(** [neg] (scalar.hpp:289-291). *)
Definition ineg (t : ity) (x : Z) : option Z :=
  r <- arith (lift t) (- x) ;;
  Some (conv t r).

(** [sq] (scalar.hpp:232-234) and [magsq] of a real value (l. 243-247). *)
Definition isq (t : ity) (x : Z) : option Z :=
  r <- arith (lift t) (x * x) ;;
  Some (conv t r).

(** [mag] (scalar.hpp:236-238): [std::abs] of the promoted operand, converted
    back.  (For unsigned types [std::abs] is ambiguous and does not compile.) *)
Definition imag_ (t : ity) (x : Z) : option Z :=
  r <- arith (lift t) (Z.abs x) ;;
  Some (conv t r).

(** [eq], [lt], [le], [gt], [ge], [ne] (scalar.hpp:327-333, 375-381, 433-439):
    in the common type; [ne] is the negation of [eq]. *)
Definition icmp (f : Z -> Z -> bool) (a b : ity) (x y : Z) : bool :=
  let c := common a b in f (conv c x) (conv c y).
Definition ieq := icmp Z.eqb.
Definition ilt := icmp Z.ltb.
Definition ile := icmp Z.leb.
Definition igt := icmp Z.gtb.
Definition ige := icmp Z.geb.
Definition ine (a b : ity) (x y : Z) : bool := negb (ieq a b x y).

(** [land], [lor], [lxor], [lnot] (scalar.hpp:215-217, 354-364). *)
Definition truth (x : Z) : bool := negb (x =? 0).
Definition iland (x y : Z) : bool := truth x && truth y.
Definition ilor (x y : Z) : bool := truth x || truth y.
Definition ilxor (x y : Z) : bool :=
  (truth x && negb (truth y)) || (negb (truth x) && truth y).
Definition ilnot (x : Z) : bool := negb (truth x).

(** [impl_max], [impl_min] on operands of the same type, and [maxmg], [minmg],
    [maxmgsq], [minmgsq] (scalar.hpp:385-409). *)
Definition impl_max (x y : Z) : Z := if x >? y then x else y.
Definition impl_min (x y : Z) : Z := if x <? y then x else y.
Definition imaxmg (t : ity) (x y : Z) : option Z :=
  p <- imag_ t x ;; q <- imag_ t y ;; Some (impl_max p q).
Definition iminmg (t : ity) (x y : Z) : option Z :=
  p <- imag_ t x ;; q <- imag_ t y ;; Some (impl_min p q).
Definition imaxmgsq (t : ity) (x y : Z) : option Z :=
  p <- isq t x ;; q <- isq t y ;; Some (impl_max p q).
Definition iminmgsq (t : ity) (x y : Z) : option Z :=
  p <- isq t x ;; q <- isq t y ;; Some (impl_min p q).

(** [am], [ma], [msb], [sbm] (scalar.hpp:445-459): two operations in the
    respective common types, the second between the (unconverted) first result
    and the third operand; the result type is
    [Promotion<Promotion<T1,T2>,T3>]. *)
Definition iop3 (f g : Z -> Z -> Z) (a b d : ity) (x y z : Z) : option Z :=
  let c := common a b in
  u <- arith c (f (conv c x) (conv c y)) ;;
  let e := common c d in
  v <- arith e (g (conv e u) (conv e z)) ;;
  Some (conv (ipromote (ipromote a b) d) v).

Definition iam := iop3 Z.add Z.mul.
Definition ima := iop3 Z.mul Z.add.
Definition imsb := iop3 Z.mul Z.sub.
Definition isbm := iop3 Z.sub Z.mul.

(** ** The same functions over any commutative ring, real and complex *)

Section Algebra.
  Variable R : CRing.
  Local Open Scope cr_scope.

  (** A complex number: [std::complex], with its textbook product. *)
  Definition cx := (R * R)%type.
  Definition cx_mul (a b : cx) : cx :=
    (fst a * fst b - snd a * snd b, fst a * snd b + snd a * fst b).
  Definition cx_conj (a : cx) : cx := (fst a, - snd a).
  Definition cx_scale (k : R) (a : cx) : cx := (k * fst a, k * snd a).

  (** [magsq] of a complex value (scalar.hpp:249-263). *)
  Definition cmagsq (z : cx) : R := fst z * fst z + snd z * snd z.

  (** [jmul] (scalar.hpp:366-373): [t1 *= conj(t2)]. *)
  Definition jmul (a b : cx) : cx := cx_mul a (cx_conj b).

  (** [expoavg] (scalar.hpp:98-106). *)
  Definition expoavg (a b c : R) : R := a * b + (1 - a) * c.
End Algebra.
