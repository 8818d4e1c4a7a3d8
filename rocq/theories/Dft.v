(** The generic Fourier-transform backend (dft.hpp) with the front end that
    selects sizes and applies the scale factor.

    Modelled in exact arithmetic: [double], [T] and the conversions between
    them are one commutative ring [R], and [sin_cos(phi * k * w)] with
    [phi = exponent * 2 * pi / l] is the pair [(cs l n, sn l n)] with
    [n = exponent * k * w], that is [(cos (2 pi n / l), sin (2 pi n / l))].
    Rounding is not modelled. *)
From Coq Require Import ZArith List Bool Arith.
From Verif Require Import Base.
Import ListNotations.
Local Open Scope nat_scope.

(** Complex numbers over [R]: std::complex arithmetic (ovxx/math: complex<T>). *)
Section Cpx.
  Context (R : CRing).
  Definition cpx : Type := (R * R)%type.
  Add Ring Rr : (r_th R).
  Definition Cr : CRing.
  Proof.
    refine {| car := cpx; r0 := (0, 0)%cr; r1 := (1, 0)%cr;
      radd := fun x y => (fst x + fst y, snd x + snd y)%cr;
      rmul := fun x y => (fst x * fst y - snd x * snd y, fst x * snd y + snd x * fst y)%cr;
      rsub := fun x y => (fst x - fst y, snd x - snd y)%cr;
      ropp := fun x => (- fst x, - snd x)%cr |}.
    constructor; intros; repeat match goal with z : cpx |- _ => destruct z end;
      cbn [fst snd]; f_equal; ring.
  Defined.
  Definition cconj (x : Cr) : Cr := (fst x, - snd x)%cr.
  Definition ofR (x : R) : Cr := (x, 0%cr).

  (** The sine and cosine used for a transform of length [l]: [cs l n] stands
      for [cos (2 pi n / l)] (dft.hpp:26-31, sin_cos, and the [phi]s). *)
  Record trig := { cs : nat -> Z -> R; sn : nat -> Z -> R }.
  Definition sin_cos (t : trig) (l : nat) (n : Z) : Cr := (cs t l n, sn t l n).

  (** Where elements live.  [Real p]: an array of T.  [Inter p]: an array of
      complex<T>.  [Split a b]: a pair of arrays of T (ztype).  [Tmp p]: the
      local aligned_array of a complex-to-real transform; for split input the
      code keeps two real arrays instead, which is the same thing here. *)
  Inductive ptr := Real (p : Z) | Inter (p : Z) | Split (a b : Z) | Tmp (p : Z).
  (** Conversion of a 64-bit offset to [int]. *)
  Definition to_int (o : Z) : Z :=
    let r := (o mod 4294967296)%Z in (if (r <? 2147483648)%Z then r else r - 4294967296)%Z.
  (** [p + o]; for a pair of pointers, [make_pair(p.first + o, p.second + o)]. *)
  Definition padd (q : ptr) (o : Z) : ptr :=
    match q with
    | Real p => Real (p + o) | Inter p => Inter (p + o)
    | Split a b => Split (a + o) (b + o) | Tmp p => Tmp (p + o)
    end%Z.
  (** The same where the code for pairs of pointers calls the helper
      [offset(data, int o)] (dft.hpp:33-37), whose parameter is an [int]. *)
  Definition poff (q : ptr) (o : Z) : ptr :=
    match q with Split _ _ => padd q (to_int o) | _ => padd q o end.
  (** Memory: arrays of T, arrays of complex<T>, and the temporary, whose cells
      start uninitialised ([Some None]).  [None] is outside every array. *)
  Record st := St { rm : mem R; cm : mem Cr; tm : mem (option Cr) }.
  (** Reading element [i] of an array as a complex number. *)
  Definition get (m : st) (q : ptr) (i : Z) : option Cr :=
    match q with
    | Real p => x <- mload (rm m) (p + i);; Some (ofR x)
    | Inter p => mload (cm m) (p + i)
    | Split a b => x <- mload (rm m) (a + i);; y <- mload (rm m) (b + i);; Some (x, y)
    | Tmp p => x <- mload (tm m) (p + i);; x
    end%Z.
  (** Writing; a real array receives [v.real()]. *)
  Definition put (m : st) (q : ptr) (i : Z) (v : Cr) : option st :=
    match q with
    | Real p => r <- mstore (rm m) (p + i) (fst v);; Some (St r (cm m) (tm m))
    | Inter p => c <- mstore (cm m) (p + i) v;; Some (St (rm m) c (tm m))
    | Split a b => r <- mstore (rm m) (a + i) (fst v);; r' <- mstore r (b + i) (snd v);; Some (St r' (cm m) (tm m))
    | Tmp p => t <- mstore (tm m) (p + i) (Some v);; Some (St (rm m) (cm m) t)
    end%Z.
  (** aligned_array<ctype> tmp(n): a fresh array, uninitialised
      (aligned_array.hpp:101-105); [tmp_free] is its destructor (l.114). *)
  Definition tmp_alloc (n : nat) (m : st) : st :=
    St (rm m) (cm m) (fun a => if ((0 <=? a) && (a <? Z.of_nat n))%Z then Some None else None).
  Definition tmp_free (old : st) (m : st) : st := St (rm m) (cm m) (tm old).

  Context (t : trig).
  Implicit Types (p q : ptr) (s : Z) (l : nat) (m : st).
  (** The inner loop of every 1-D transform, [sum += in[k * s] * sin_cos(phi * k * w)]
      for [k < n] (dft.hpp:67-68 and the like). *)
  Definition inner (e : Z) l q s (w n : nat) m : option Cr :=
    loop (fun k (acc : Cr) => x <- get m q (Z.of_nat k * s)%Z;;
            Some (acc + x * sin_cos t l (e * Z.of_nat k * Z.of_nat w)%Z)%cr) 0 n (0%cr : Cr).
  (** dft<1,complex,complex,S>::in_place (dft.hpp:59-91); [e] is [exponent]
      (l.51), -1 forward and 1 inverse. *)
  Definition dft1_in_place (e : Z) q s l m : option st :=
    tmp <- loop (fun w tmp => v <- inner e l q s w l m;; bput tmp w (Some v)) 0 l (repeat (None : option Cr) l);;
    loop (fun w m' => c <- bget tmp w;; v <- c;; put m' q (Z.of_nat w * s)%Z v) 0 l m.
  (** dft<1,complex,complex,S>::out_of_place (dft.hpp:92-121). *)
  Definition dft1_out_of_place (e : Z) p sp q sq l m : option st :=
    loop (fun w m' => v <- inner e l p sp w l m';; put m' q (Z.of_nat w * sq)%Z v) 0 l m.
  (** dft<1,T,complex<T>,0>::out_of_place (dft.hpp:137-165). *)
  Definition rdft1 p sp q sq l m : option st :=
    loop (fun w m' => v <- inner (-1) l p sp w l m';; put m' q (Z.of_nat w * sq)%Z v) 0 (l / 2 + 1) m.
  (** dft<1,complex<T>,T,0>::out_of_place (dft.hpp:181-214). *)
  Definition crdft1 p sp q sq l m : option st :=
    loop (fun w m' =>
      a <- inner 1 l p sp w (l / 2 + 1) m';;
      v <- loop (fun k (acc : Cr) => x <- get m' p (Z.of_nat (l - k) * sp)%Z;;
            Some (acc + cconj x * sin_cos t l (1 * Z.of_nat k * Z.of_nat w)%Z)%cr) (l / 2 + 1) (l - (l / 2 + 1)) a;;
      put m' q (Z.of_nat w * sq)%Z v) 0 l m.

  Definition off (n : nat) (s : Z) : Z := (Z.of_nat n * s)%Z.
  (** dft<2,complex,complex,S> (dft.hpp:233-296). *)
  Definition dft2_in_place (e : Z) q rs cstr (rows cols : nat) m : option st :=
    m1 <- loop (fun r m' => dft1_in_place e (padd q (off r rs)) cstr cols m') 0 rows m;;
    loop (fun c m' => dft1_in_place e (padd q (off c cstr)) rs rows m') 0 cols m1.
  Definition dft2_out_of_place (e : Z) p irs ics q ors ocs (rows cols : nat) m : option st :=
    m1 <- loop (fun r m' => dft1_out_of_place e (padd p (off r irs)) ics (padd q (off r ors)) ocs cols m') 0 rows m;;
    loop (fun c m' => dft1_in_place e (padd q (off c ocs)) ors rows m') 0 cols m1.
  (** dft<2,T,complex<T>,S>::out_of_place (dft.hpp:312-378); [axis] is [S]. *)
  Definition rdft2 (axis : nat) p irs ics q ors ocs (rows cols : nat) m : option st :=
    if axis =? 0 then
      m1 <- loop (fun c m' => rdft1 (padd p (off c ics)) irs (padd q (off c ocs)) ors rows m') 0 cols m;;
      loop (fun r m' => dft1_in_place (-1) (padd q (off r ors)) ocs cols m') 0 (rows / 2 + 1) m1
    else
      m1 <- loop (fun r m' => rdft1 (padd p (off r irs)) ics (padd q (off r ors)) ocs cols m') 0 rows m;;
      loop (fun c m' => dft1_in_place (-1) (padd q (off c ocs)) ors rows m') 0 (cols / 2 + 1) m1.
  (** dft<2,complex<T>,T,S>::out_of_place (dft.hpp:395-474). *)
  Definition crdft2 (axis : nat) p irs ics q ors ocs (rows cols : nat) m : option st :=
    if axis =? 0 then
      let rows2 := rows / 2 + 1 in
      m1 <- loop (fun r m' => dft1_out_of_place 1 (poff p (off r irs)) ics (padd (Tmp 0) (off r (Z.of_nat cols))) 1 cols m')
              0 rows2 (tmp_alloc (rows2 * cols) m);;
      m2 <- loop (fun c m' => crdft1 (padd (Tmp 0) (Z.of_nat c)) (Z.of_nat cols) (padd q (off c ocs)) ors rows m') 0 cols m1;;
      Some (tmp_free m m2)
    else
      let cols2 := cols / 2 + 1 in
      m1 <- loop (fun c m' => dft1_out_of_place 1 (poff p (off c ics)) irs (padd (Tmp 0) (off c (Z.of_nat rows))) 1 rows m')
              0 cols2 (tmp_alloc (rows * cols2) m);;
      m2 <- loop (fun r m' => crdft1 (padd (Tmp 0) (Z.of_nat r)) (Z.of_nat rows) (padd q (off r ors)) ocs cols m') 0 rows m1;;
      Some (tmp_free m m2).

  (** dft<3,complex,complex,S> (dft.hpp:492-577). *)
  Definition dft3_in_place (e : Z) q xs ys zs (nx ny nz : nat) m : option st :=
    m1 <- loop (fun x m' => dft2_in_place e (poff q (off x xs)) ys zs ny nz m') 0 nx m;;
    loop (fun y m' => loop (fun z m'' => dft1_in_place e (poff q (off y ys + off z zs)) xs nx m'') 0 nz m') 0 ny m1.
  Definition dft3_out_of_place (e : Z) p ixs iys izs q oxs oys ozs (nx ny nz : nat) m : option st :=
    m1 <- loop (fun x m' => dft2_out_of_place e (poff p (off x ixs)) iys izs (poff q (off x oxs)) oys ozs ny nz m') 0 nx m;;
    loop (fun y m' => loop (fun z m'' => dft1_in_place e (poff q (off y oys + off z ozs)) oxs nx m'') 0 nz m') 0 ny m1.
  (** dft<3,T,complex<T>,S>::out_of_place (dft.hpp:594-702). *)
  Definition rdft3 (axis : nat) p ixs iys izs q oxs oys ozs (nx ny nz : nat) m : option st :=
    match axis with
    | 0 =>
      m1 <- loop (fun y m' => loop (fun z m'' =>
              rdft1 (padd p (off y iys + off z izs)) ixs (poff q (off y oys + off z ozs)) oxs nx m'') 0 nz m') 0 ny m;;
      loop (fun x m' => dft2_in_place (-1) (poff q (off x oxs)) oys ozs ny nz m') 0 (nx / 2 + 1) m1
    | 1 =>
      m1 <- loop (fun x m' => loop (fun z m'' =>
              rdft1 (padd p (off x ixs + off z izs)) iys (poff q (off x oxs + off z ozs)) oys ny m'') 0 nz m') 0 nx m;;
      loop (fun y m' => dft2_in_place (-1) (poff q (off y oys)) oxs ozs nx nz m') 0 (ny / 2 + 1) m1
    | _ =>
      m1 <- loop (fun x m' => loop (fun y m'' =>
              rdft1 (padd p (off x ixs + off y iys)) izs (poff q (off x oxs + off y oys)) ozs nz m'') 0 ny m') 0 nx m;;
      loop (fun z m' => dft2_in_place (-1) (poff q (off z ozs)) oxs oys nx ny m') 0 (nz / 2 + 1) m1
    end.
  (** dft<3,complex<T>,T,S>::out_of_place (dft.hpp:719-877). *)
  Definition crdft3 (axis : nat) p ixs iys izs q oxs oys ozs (nx ny nz : nat) m : option st :=
    match axis with
    | 0 =>
      let x2 := nx / 2 + 1 in
      m1 <- loop (fun x m' => dft2_out_of_place 1 (poff p (off x ixs)) iys izs
              (padd (Tmp 0) (Z.of_nat (x * ny * nz))) 1 (Z.of_nat ny) ny nz m') 0 x2 (tmp_alloc (x2 * ny * nz) m);;
      m2 <- loop (fun y m' => loop (fun z m'' =>
              crdft1 (padd (Tmp 0) (Z.of_nat (y + z * ny))) (Z.of_nat (ny * nz)) (padd q (off y oys + off z ozs)) oxs nx m'') 0 nz m') 0 ny m1;;
      Some (tmp_free m m2)
    | 1 =>
      let y2 := ny / 2 + 1 in
      m1 <- loop (fun y m' => dft2_out_of_place 1 (poff p (off y iys)) ixs izs
              (padd (Tmp 0) (Z.of_nat (y * nx * nz))) 1 (Z.of_nat nx) nx nz m') 0 y2 (tmp_alloc (y2 * nx * nz) m);;
      m2 <- loop (fun x m' => loop (fun z m'' =>
              crdft1 (padd (Tmp 0) (Z.of_nat (x + z * nx))) (Z.of_nat (nx * nz)) (padd q (off x oxs + off z ozs)) oys ny m'') 0 nz m') 0 nx m1;;
      Some (tmp_free m m2)
    | _ =>
      let z2 := nz / 2 + 1 in
      m1 <- loop (fun z m' => dft2_out_of_place 1 (poff p (off z izs)) iys ixs
              (padd (Tmp 0) (Z.of_nat (z * ny * nx))) 1 (Z.of_nat ny) ny nx m') 0 z2 (tmp_alloc (z2 * ny * nx) m);;
      m2 <- loop (fun y m' => loop (fun x m'' =>
              crdft1 (padd (Tmp 0) (Z.of_nat (y + x * ny))) (Z.of_nat (ny * nx)) (padd q (off y oys + off x oxs)) ozs nz m'') 0 nx m') 0 ny m1;;
      Some (tmp_free m m2)
    end.

  (** dftm: many 1-D transforms (dft.hpp:881-1084).  [A = 1] is vsip::col,
      [A = 0] is vsip::row. *)
  Definition dftm_out_of_place (A : nat) (e : Z) p irs ics q ors ocs (rows cols : nat) m : option st :=
    if A =? 1 then
      loop (fun c m' => dft1_out_of_place e (padd p (off c ics)) irs (padd q (off c ocs)) ors rows m') 0 cols m
    else
      loop (fun r m' => dft1_out_of_place e (padd p (off r irs)) ics (padd q (off r ors)) ocs cols m') 0 rows m.
  Definition dftm_in_place (A : nat) (e : Z) q rs cstr (rows cols : nat) m : option st :=
    if A =? 1 then loop (fun c m' => dft1_in_place e (padd q (off c cstr)) rs rows m') 0 cols m
    else loop (fun r m' => dft1_in_place e (padd q (off r rs)) cstr cols m') 0 rows m.
  Definition rdftm (A : nat) p irs ics q ors ocs (rows cols : nat) m : option st :=
    if A =? 1 then loop (fun c m' => rdft1 (padd p (off c ics)) irs (poff q (off c ocs)) ors rows m') 0 cols m
    else loop (fun r m' => rdft1 (padd p (off r irs)) ics (poff q (off r ors)) ocs cols m') 0 rows m.
  Definition crdftm (A : nat) p irs ics q ors ocs (rows cols : nat) m : option st :=
    if A =? 1 then loop (fun c m' => crdft1 (padd p (off c ics)) irs (padd q (off c ocs)) ors rows m') 0 cols m
    else loop (fun r m' => crdft1 (padd p (off r irs)) ics (padd q (off r ors)) ocs cols m') 0 rows m.

  (** [view *= scale] over a view of two dimensions (workspace.hpp:422-426,
      474-478); one dimension is [rows = 1].  [ne1] is the test
      [scale_ != scalar_type(1.)]; the backend's supports_scale() is false
      (backend.hpp, never overridden in dft.hpp). *)
  Definition scale_view (ne1 : bool) (k : R) q rs cstr (rows cols : nat) m : option st :=
    if ne1 then
      loop (fun r m' => loop (fun c m'' => v <- get m'' q (off r rs + off c cstr)%Z;; put m'' q (off r rs + off c cstr)%Z (v * ofR k)%cr) 0 cols m') 0 rows m
    else Some m.

  (** The front end: Fft<1,...>::operator()(in, out) and operator()(inout) by
      reference (fft.hpp:243-267), with the sizes of io_size
      (util.hpp:60-78), the preconditions on the extents, and workspace<1>
      (workspace.hpp:397-446).  A view is a pointer, a stride and a size.
      The data is assumed directly accessible in the layout the backend asks
      for (no copy in dda::Rt_data; see C25 for the copies). *)
  Record vw := Vw { vp : ptr; vs : Z; vn : nat }.
  Inductive kind := C2C | R2C | C2R.
  Definition in_size (k : kind) (n : nat) : nat := match k with C2R => n / 2 + 1 | _ => n end.
  Definition out_size (k : kind) (n : nat) : nat := match k with R2C => n / 2 + 1 | _ => n end.
  Definition fft1_by_reference (k : kind) (e : Z) (n : nat) (ne1 : bool) (sc : R) (i o : vw) m : option st :=
    assert (vn i =? in_size k n);;
    assert (vn o =? out_size k n);;
    m1 <- match k with
          | C2C => dft1_out_of_place e (vp i) (vs i) (vp o) (vs o) (vn i) m
          | R2C => rdft1 (vp i) (vs i) (vp o) (vs o) (vn i) m
          | C2R => crdft1 (vp i) (vs i) (vp o) (vs o) (vn o) m
          end;;
    scale_view ne1 sc (vp o) 0 (vs o) 1 (vn o) m1.
  Definition fft1_in_place (e : Z) (n : nat) (ne1 : bool) (sc : R) (io : vw) m : option st :=
    assert (vn io =? in_size C2C n);;
    assert (vn io =? out_size C2C n);;
    m1 <- dft1_in_place e (vp io) (vs io) (vn io) m;;
    scale_view ne1 sc (vp io) 0 (vs io) 1 (vn io) m1.

  (** * Specification *)

  (** The laws of cosine and sine at the multiples of [2 pi / l]. *)
  Record exact (l : nat) : Prop := {
    ex_0 : sin_cos t l 0 = (1%cr : Cr);
    ex_add : forall a b, sin_cos t l (a + b) = (sin_cos t l a * sin_cos t l b)%cr;
    ex_opp : forall a, sin_cos t l (- a) = cconj (sin_cos t l a);
    ex_per : sin_cos t l (Z.of_nat l) = (1%cr : Cr);
    ex_sum : forall j, 0 < j < l -> sum (fun k => sin_cos t l (Z.of_nat k * Z.of_nat j)%Z) l = (0%cr : Cr) }.

  (** The discrete Fourier transform of a sequence, in one, two and three
      dimensions; [e = -1] forward, [e = 1] inverse, no scaling. *)
  Definition DFT (e : Z) (l : nat) (x : nat -> Cr) (w : nat) : Cr :=
    sum (fun k => (x k * sin_cos t l (e * Z.of_nat k * Z.of_nat w)%Z)%cr) l.
  Definition DFT2 (e : Z) (rows cols : nat) (x : nat -> nat -> Cr) (u v : nat) : Cr :=
    sum (fun r => sum (fun c => (x r c * (sin_cos t rows (e * Z.of_nat r * Z.of_nat u)%Z * sin_cos t cols (e * Z.of_nat c * Z.of_nat v)%Z))%cr) cols) rows.
  Definition DFT3 (e : Z) (nx ny nz : nat) (x : nat -> nat -> nat -> Cr) (u v w : nat) : Cr :=
    sum (fun i => sum (fun j => sum (fun k => (x i j k * (sin_cos t nx (e * Z.of_nat i * Z.of_nat u)%Z * (sin_cos t ny (e * Z.of_nat j * Z.of_nat v)%Z * sin_cos t nz (e * Z.of_nat k * Z.of_nat w)%Z)))%cr) nz) ny) nx.
  (** [n] as a ring element. *)
  Definition nat_r (n : nat) : Cr := sum (fun _ => 1%cr : Cr) n.

  (** Cells of memory occupied by element [i] of an array, and their contents. *)
  Inductive cell := RCell (a : Z) | CCell (a : Z) | TCell (a : Z).
  Definition cells q (i : Z) : list cell :=
    match q with
    | Real p => [RCell (p + i)] | Inter p => [CCell (p + i)]
    | Split a b => [RCell (a + i); RCell (b + i)] | Tmp p => [TCell (p + i)]
    end%Z.
  (** The contents of a cell a user can see. *)
  Definition rd m (c : cell) : option Cr + option R :=
    match c with RCell a => inr (rm m a) | CCell a => inl (cm m a) | TCell a => inl None end.
  (** Two elements share no memory; an element can be written; what reading an
      element back gives after [v] is written to it. *)
  Definition apart p i q j : Prop := forall c, In c (cells p i) -> ~ In c (cells q j).
  Definition writable m q (i : Z) : Prop :=
    NoDup (cells q i) /\
    match q with
    | Real p => rm m (p + i) <> None | Inter p => cm m (p + i) <> None
    | Split a b => rm m (a + i) <> None /\ rm m (b + i) <> None | Tmp p => tm m (p + i) <> None
    end%Z.
  Definition as_stored q (v : Cr) : Cr := match q with Real _ => ofR (fst v) | _ => v end.
  (** The offset survives the conversion to [int] where the code makes one. *)
  Definition int_ok q (o : Z) : Prop :=
    match q with Split _ _ => (-2147483648 <= o < 2147483648)%Z | _ => True end.
  Definition real_ptr q : Prop := match q with Real _ => True | _ => False end.
  Definition cpx_ptr q : Prop := match q with Inter _ | Split _ _ => True | _ => False end.
  (** The Hermitian extension of a half spectrum. *)
  Definition herm (l : nat) (x : nat -> Cr) (k : nat) : Cr := if k <=? l / 2 then x k else cconj (x (l - k)).

  (** Arrays of elements indexed by [J]: element [j] of the array is at offset
      [a j] from the pointer. *)
  Definition holds {J} m (dJ : J -> Prop) p (a : J -> Z) (x : J -> Cr) : Prop := forall j, dJ j -> get m p (a j) = Some (x j).
  Definition room {K} m (dK : K -> Prop) q (b : K -> Z) : Prop := forall k, dK k -> writable m q (b k).
  (** From [m] to [m'] the user's memory changed only in that array, and what
      could be written still can. *)
  Definition only {K} m m' (dK : K -> Prop) q (b : K -> Z) : Prop :=
    (forall c, (forall k, dK k -> ~ In c (cells q (b k))) -> rd m' c = rd m c) /\
    (forall p i, writable m p i -> writable m' p i).
  (** [op], started with [x] in the input array, leaves [y] in the output array
      and changes nothing else. *)
  Definition computes {J K} (op : st -> option st) (dJ : J -> Prop) p a x (dK : K -> Prop) q b y : Prop :=
    forall m, holds m dJ p a x -> room m dK q b ->
      exists m', op m = Some m' /\ holds m' dK q b y /\ only m m' dK q b.
End Cpx.

(** Index sets and offsets of arrays of one, two and three dimensions. *)
Definition ix1 (n : nat) (i : nat) : Prop := i < n.
Definition ix2 (n l : nat) (ik : nat * nat) : Prop := fst ik < n /\ snd ik < l.
Definition ix3 (n l h : nat) (i : nat * (nat * nat)) : Prop := fst i < n /\ ix2 l h (snd i).
Definition at1 (s : Z) (i : nat) : Z := off i s.
Definition at2 (rs cstr : Z) (rc : nat * nat) : Z := (off (fst rc) rs + off (snd rc) cstr)%Z.
Definition at3 (xs ys zs : Z) (i : nat * (nat * nat)) : Z := (off (fst i) xs + at2 ys zs (snd i))%Z.
(** The elements of an array occupy different memory; two arrays do not overlap. *)
Definition dist {K} (dK : K -> Prop) (q : ptr) (b : K -> Z) : Prop := forall k k', dK k -> dK k' -> k <> k' -> apart q (b k) q (b k').
Definition disj {J K} (dJ : J -> Prop) (p : ptr) (a : J -> Z) (dK : K -> Prop) (q : ptr) (b : K -> Z) : Prop := forall j k, dJ j -> dK k -> apart q (b k) p (a j).
