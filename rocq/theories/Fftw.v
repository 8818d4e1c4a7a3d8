(** The FFTW backend (ovxx/fftw/fft.cpp, ovxx/fftw/fftw.cpp) together with
    the workspace that connects it to blocks (ovxx/signal/fft/workspace.hpp)
    and the run-time data access it uses (ovxx/dda/accessor.hpp 117-190 and
    618-774, ovxx/dda/block_copy.hpp 77-262).

    FFTW itself is not modelled: it is any function that meets what its
    manual promises ([documented] below).  Numbers, memory and pointers are
    those of Dft.v.  [complex_storage_format] (fft.cpp 26) is the configured
    default, an array of complex numbers; a library configured for split
    complex arrays (plan_guru_split_dft) is not modelled. *)
From Coq Require Import ZArith List Bool Arith.
From Verif Require Import Base Layout Dft.
Import ListNotations.
Local Open Scope nat_scope.

(** * FFTW's interface *)

(** FFTW(iodim): members n, is and os, all of type int. *)
Record iodim := Dim { d_n : Z; d_is : Z; d_os : Z }.
Inductive rigor_flag := ESTIMATE | MEASURE | PATIENT.
(** The flag word of a plan. *)
Record flags := Flags { f_rigor : rigor_flag; f_preserve : bool; f_unaligned : bool }.
(** FFTW(plan): the transform, its dimensions, the sign of the exponent,
    whether input and output were the same array, and the flags. *)
Record plan := Plan { pl_kind : kind; pl_dims : list iodim; pl_sign : Z; pl_same : bool; pl_flags : flags }.
(** FFTW(plan_guru_dft), (_r2c), (_c2r): null for dimensions that are not
    positive, and for a complex-to-real transform of several dimensions that
    is asked to preserve its input. *)
Definition plan_guru (k : kind) (ds : list iodim) (sign : Z) (same : bool) (fl : flags) : option plan :=
  assert forallb (fun d => 0 <? d_n d)%Z ds ;;
  assert negb (match k with C2R => (1 <? length ds) && f_preserve fl | _ => false end) ;;
  Some (Plan k ds sign same fl).

(** Index tuples in row-major order: [for (Index<D> idx; valid(ext, idx);
    next(ext, idx))] (C25, C26 cover these loops). *)
Fixpoint all_ix (ns : list nat) : list (list nat) :=
  match ns with
  | [] => [[]]
  | n :: ns' => flat_map (fun k => map (cons k) (all_ix ns')) (seq 0 n)
  end.
Fixpoint each {S A} (f : A -> S -> option S) (l : list A) (s : S) : option S :=
  match l with [] => Some s | a :: l' => s' <- f a s ;; each f l' s' end.

(** Offset of the element with index [i] under strides [ss]. *)
Fixpoint ats (ss : list Z) (i : list nat) : Z :=
  match ss, i with s :: ss', k :: i' => (Z.of_nat k * s + ats ss' i')%Z | _, _ => 0%Z end.

(** * The wrapper *)
Section Wrapper.
  (** sizeof(SCALAR_TYPE) and OVXX_ALLOC_ALIGNMENT. *)
  Context (ssz AL : Z).

  (** fft.cpp 29-42 (turn). *)
  Definition turn (A : nat) (dom : list nat) : list nat :=
    match dom with
    | [a; b] => if A =? 1 then dom else [b; a]
    | [a; b; c] => match A with 2 => dom | 1 => [a; c; b] | _ => [c; b; a] end
    | _ => dom
    end.
  (** fftw.cpp 35-37 (iosize): io_size<D, complex, T, D-1> halves the last dimension. *)
  Fixpoint iosize (dom : list nat) : list nat :=
    match dom with
    | [] => []
    | [n] => [n / 2 + 1]
    | n :: dom' => n :: iosize dom'
    end.
  (** fft.cpp 46-54 (rigor); [number - 1] is unsigned. *)
  Definition rigor (number : Z) : rigor_flag :=
    let n1 := ((number - 1) mod 2 ^ 32)%Z in
    if (30 <? n1)%Z then PATIENT else if (10 <? n1)%Z then MEASURE else ESTIMATE.
  (** fft.cpp 56-72 (make_flags<T>); [elem] is sizeof(T). *)
  Definition make_flags1 (elem : Z) (len : nat) (number : Z) (preserve : bool) : flags :=
    Flags (rigor number) preserve
      (negb (AL mod elem =? 0)%Z || negb ((elem * Z.of_nat len) mod AL =? 0)%Z).
  (** fft.cpp 74-81 (make_flags). *)
  Definition make_flagsn (number : Z) (preserve : bool) : flags := Flags (rigor number) preserve true.

  (** Rt_layout(aligned_ ? aligned : dense, order, format, OVXX_ALLOC_ALIGNMENT). *)
  Definition rtl (fl : flags) (o : order) : rt_layout :=
    {| rt_packing := if f_unaligned fl then p_dense else p_aligned; rt_order := o; rt_alignment := AL |}.
  Definition zs (l : list nat) : list Z := map Z.of_nat l.
  Definition strides (a : applied) (D : nat) : list Z := map (stride a) (seq 0 D).
  (** total_size of the planner's layout, or of the two-dimensional layout
      used when mult > 1 (fftw.cpp 46-57, 132-163, 214-245).  The order is
      tuple<0,1,2>, the element size sizeof(SCALAR_TYPE). *)
  Definition plan_layout (fl : flags) (dom : list nat) : option applied :=
    make_rt (rtl fl (seq 0 (length dom))) (zs dom) ssz.
  Definition buffer_size (fl : flags) (dom : list nat) (mult : nat) : option Z :=
    a <- plan_layout fl dom ;;
    if 1 <? mult then b <- plan_layout fl [mult; nth 0 dom 0] ;; Some (total_size b)
    else Some (total_size a).
  (** The loop that fills dims (fftw.cpp 61-66, 167-173, 249-255); the
      members of iodim are ints. *)
  Definition fill_dims (dom : list nat) (il ol : applied) : list iodim :=
    map (fun d => Dim (to_int (at_ (zs dom) d)) (to_int (stride il d)) (to_int (stride ol d))) (seq 0 (length dom)).
  (** The result of a planner's constructor: its plans (in place: only
      complex to complex) and the sizes of in_buffer_ and out_buffer_ in
      elements; null plans throw bad_alloc. *)
  Record planner := Planner { op_plan : plan; ip_plan : option plan; in_cells : Z; out_cells : Z }.
  Definition mk_planner (k : kind) (exp : Z) (A : nat) (fl : flags) (dom : list nat) (mult : nat) : option planner :=
    match k with
    | C2C =>   (* fftw.cpp 40-116 *)
        l <- plan_layout fl dom ;;
        n <- buffer_size fl dom mult ;;
        let ds := fill_dims dom l l in
        ip <- plan_guru C2C ds exp true fl ;;
        op <- plan_guru C2C ds exp false fl ;;
        Some (Planner op (Some ip) n n)
    | R2C =>   (* fftw.cpp 118-198 *)
        let dom := turn A dom in
        il <- plan_layout fl dom ;;
        ol <- plan_layout fl (iosize dom) ;;
        ni <- buffer_size fl dom mult ;;
        no <- buffer_size fl (iosize dom) mult ;;
        op <- plan_guru R2C (fill_dims dom il ol) (-1) false fl ;;
        Some (Planner op None ni no)
    | C2R =>   (* fftw.cpp 200-280 *)
        let dom := turn A dom in
        il <- plan_layout fl (iosize dom) ;;
        ol <- plan_layout fl dom ;;
        ni <- buffer_size fl (iosize dom) mult ;;
        no <- buffer_size fl dom mult ;;
        op <- plan_guru C2R (fill_dims dom il ol) 1 false fl ;;
        Some (Planner op None ni no)
    end.

  (** ** The backend objects *)

  (** The order requested for a transform with special dimension [A]
      (fftw.cpp 532-533, 577-578, 698-703, 745-750). *)
  Definition axis_order (D A : nat) : order :=
    match D with
    | 2 => if A =? 0 then [1; 0] else [0; 1]
    | 3 => match A with 0 => [2; 1; 0] | 1 => [0; 2; 1] | _ => [0; 1; 2] end
    | _ => [0]
    end.
  (** An fft or fftm object: planner base, the layout its query_layout
      returns (the same for input and output but for the storage format),
      what requires_copy returns, and for an fftm the axis. *)
  Record backend := Backend { be_kind : kind; be_planner : planner; be_layout : rt_layout; be_force : bool; be_axis : option nat }.
  (** exponent<complex, complex, S> (util.hpp 48-51). *)
  Definition exponent (inv : bool) : Z := if inv then 1%Z else (-1)%Z.
  (** The constructors of fft<D,I,O,S> with query_layout and requires_copy:
      fftw.cpp 285-310 and 439-463 and 604-628 (complex), 357-377 and 516-537
      and 682-707 (real to complex), 399-419 and 561-586 and 729-758
      (complex to real). *)
  Definition fft_create (k : kind) (inv : bool) (A : nat) (dims : list nat) (number : Z) : option backend :=
    let D := length dims in
    let fl := if D =? 1
              then make_flags1 (match k with C2C => 2 * ssz | _ => ssz end)%Z (nth 0 dims 0) number true
              else make_flagsn number (match k with C2R => false | _ => true end) in
    pl <- mk_planner k (exponent inv) A fl dims 1 ;;
    Some (Backend k pl (rtl fl (match k with C2C => seq 0 D | _ => axis_order D A end))
            (match k with C2R => 1 <? D | _ => false end) None).
  (** fftm: fftw.cpp 777-803, 844-869, 904-932; [axis] is 0 for vsip::col. *)
  Definition fftm_create (k : kind) (inv : bool) (axis : nat) (rows cols : nat) (number : Z) : option backend :=
    let n := nth axis [rows; cols] 0 in
    let fl := make_flags1 (match k with C2C => 2 * ssz | _ => ssz end)%Z n number
                (match k with R2C => false | _ => true end) in
    pl <- mk_planner k (exponent inv) 0 fl [n] (nth (1 - axis) [rows; cols] 0) ;;
    Some (Backend k pl (rtl fl (if axis =? 0 then [1; 0] else [0; 1])) false (Some axis)).

  (** ** Access to blocks *)

  (** A block: where its elements are, what its type says about the order of
      its dimensions, its sizes, its strides, and whether it supports direct
      data access at all (expression blocks do not: copy_access). *)
  Record blk := Blk { b_ptr : ptr; b_order : order; b_size : list nat; b_stride : list Z; b_dda : bool }.
  (** sizeof(value_type), and the address of a pointer in bytes (for a split
      array, of the real parts): memory cell [p] of an array is at [p] times
      the element size. *)
  Definition elem_size (q : ptr) : Z := match q with Real _ => ssz | _ => (2 * ssz)%Z end.
  Definition address (q : ptr) : Z :=
    match q with Real p => p * ssz | Inter p => p * (2 * ssz) | Split a _ => a * ssz | Tmp p => p * (2 * ssz) end%Z.
  Definition is_split (q : ptr) : bool := match q with Split _ _ => true | _ => false end.
  Definition sz (b : blk) (d : nat) : Z := at_ (zs (b_size b)) d.
  Definition sd (b : blk) (d : nat) : Z := at_ (b_stride b) d.
  (** accessor.hpp 117-190: is_compatible(block, layout), for a layout whose
      storage format is array; the tests [% alignment] are on unsigned
      numbers, which makes no difference to a comparison with 0. *)
  Definition rt_compatible (b : blk) (l : rt_layout) : bool :=
    let D := length (b_size b) in
    let d0 := dim_ (b_order b) 0 in let d1 := dim_ (b_order b) 1 in let d2 := dim_ (b_order b) 2 in
    if is_split (b_ptr b) then false
    else if negb (forallb (fun d => dim_ (b_order b) d =? dim_ (rt_order l) d) (seq 0 D)) then false
    else if (rt_packing l =? 1)%Z then
      match D with 1 => (sd b 0 =? 1)%Z | 2 => (sd b d1 =? 1)%Z | _ => (sd b d2 =? 1)%Z end
    else if (rt_packing l =? p_dense)%Z then
      match D with
      | 1 => (sd b 0 =? 1)%Z
      | 2 => ((sd b d1 =? 1) && ((sd b d0 =? sz b d1) || (sz b d0 =? 1)))%Z
      | _ => (((sd b d0 =? sz b d1 * sz b d2) || (sz b d0 =? 1))
              && ((sd b d1 =? sz b d2) || ((sz b d1 =? 1) && (sz b d0 =? 1)))
              && (sd b d2 =? 1))%Z
      end
    else if is_aligned (rt_packing l) then
      let ok d := ((sd b d * elem_size (b_ptr b)) mod rt_alignment l =? 0)%Z in
      if negb (address (b_ptr b) mod rt_alignment l =? 0)%Z then false
      else match D with
           | 1 => (sd b 0 =? 1)%Z
           | 2 => (sd b d1 =? 1)%Z && ok d0
           | _ => (sd b d2 =? 1)%Z && ok d1 && ok d0
           end
    else true.
  (** What an Rt_data object hands out: pointer and strides, and the layout
      of the copy if there is one (accessor.hpp 652-668 and 743-755; the
      size of the buffer is passed as 0, so it is not checked). *)
  Record access := Access { ac_ptr : ptr; ac_stride : list Z; ac_copy : option applied }.
  Definition rt_open (b : blk) (l : rt_layout) (force : bool) (buffer : ptr) : option access :=
    if b_dda b && (negb force && rt_compatible b l) then Some (Access (b_ptr b) (b_stride b) None)
    else a <- make_rt l (zs (b_size b)) (elem_size (b_ptr b)) ;;
         Some (Access buffer (strides a (length (b_size b))) (Some a)).

  Section Exec.
    Context (R : CRing).
    (** FFTW(execute_dft), (_r2c), (_c2r). *)
    Context (exec : plan -> ptr -> ptr -> st R -> option (st R)).

    (** block_copy.hpp 90-95, 142-147: block to memory. *)
    Definition copy_in (b : blk) (w : access) (m : st R) : option (st R) :=
      match ac_copy w with
      | None => Some m
      | Some a => each (fun i m' => v <- get R m' (b_ptr b) (ats (b_stride b) i) ;;
                                    o <- index a (zs i) ;; put R m' (ac_ptr w) o v) (all_ix (b_size b)) m
      end.
    (** block_copy.hpp 183-188, 238-243: memory to block. *)
    Definition copy_out (b : blk) (w : access) (m : st R) : option (st R) :=
      match ac_copy w with
      | None => Some m
      | Some a => each (fun i m' => o <- index a (zs i) ;; v <- get R m' (ac_ptr w) o ;;
                                    put R m' (b_ptr b) (ats (b_stride b) i) v) (all_ix (b_size b)) m
      end.
    (** [view *= scale_] (workspace.hpp 426-430); [ne1] is
        [scale_ != scalar_type(1.)]. *)
    Definition scale_blk (ne1 : bool) (k : R) (b : blk) (m : st R) : option (st R) :=
      if ne1 then each (fun i m' => v <- get R m' (b_ptr b) (ats (b_stride b) i) ;;
                                    put R m' (b_ptr b) (ats (b_stride b) i) (v * ofR R k)%cr) (all_ix (b_size b)) m
      else Some m.

    (** out_of_place and in_place of the backends.  An fft passes the
        pointers on (fftw.cpp 312-336, 380-386, 422-427, 466-495, 540-547,
        587-592, 631-661, 710-716, 759-765); an fftm runs its plan on each row
        or column (806-820, 872-885, 935-945, 965-977), where a step from one
        to the next is [stride] elements (the conversion of the stride to an
        unsigned number and back is not modelled).  [sizes] are the rows and
        columns passed. *)
    Definition step (axis : nat) (ss : list Z) : Z := if axis =? 1 then at_ ss 0 else at_ ss 1.
    Definition be_out_of_place (be : backend) (p : ptr) (is : list Z) (q : ptr) (os : list Z) (sizes : list nat) (m : st R) : option (st R) :=
      match be_axis be with
      | None => exec (op_plan (be_planner be)) p q m
      | Some ax =>
          let mult := if ax =? 1 then nth 0 sizes 0 else nth 1 sizes 0 in
          loop (fun i m' => exec (op_plan (be_planner be)) (padd p (off i (step ax is))) (padd q (off i (step ax os))) m') 0 mult m
      end.
    Definition be_in_place (be : backend) (p : ptr) (ss : list Z) (sizes : list nat) (m : st R) : option (st R) :=
      pl <- ip_plan (be_planner be) ;;
      match be_axis be with
      | None => exec pl p p m
      | Some ax =>
          let mult := if ax =? 1 then nth 0 sizes 0 else nth 1 sizes 0 in
          loop (fun i m' => exec pl (padd p (off i (step ax ss))) (padd p (off i (step ax ss))) m') 0 mult m
      end.

    (** workspace<D,I,O>::out_of_place (workspace.hpp 411-431, 466-486,
        521-541); [ib] and [ob] are the backend's buffers; the sizes passed
        are those of the input, or of the output of a complex-to-real
        transform. *)
    Definition ws_out_of_place (be : backend) (ib ob : ptr) (ne1 : bool) (sc : R) (bi bo : blk) (m : st R) : option (st R) :=
      wi <- rt_open bi (be_layout be) (be_force be) ib ;;
      m1 <- copy_in bi wi m ;;
      wo <- rt_open bo (be_layout be) false ob ;;
      m2 <- be_out_of_place be (ac_ptr wi) (ac_stride wi) (ac_ptr wo) (ac_stride wo)
              (match be_kind be with C2R => b_size bo | _ => b_size bi end) m1 ;;
      m3 <- copy_out bo wo m2 ;;
      scale_blk ne1 sc bo m3.
    (** workspace<D,I,O>::in_place (workspace.hpp 433-448, 488-503, 543-558). *)
    Definition ws_in_place (be : backend) (ib : ptr) (ne1 : bool) (sc : R) (b : blk) (m : st R) : option (st R) :=
      w <- rt_open b (be_layout be) false ib ;;
      m1 <- copy_in b w m ;;
      m2 <- be_in_place be (ac_ptr w) (ac_stride w) (b_size b) m1 ;;
      m3 <- copy_out b w m2 ;;
      scale_blk ne1 sc b m3.
    (** Fft::operator()(in, out) and operator()(inout) (fft.hpp 245-267),
        with the sizes of io_size<D,I,O,axis> (util.hpp 60-78). *)
    Definition halve (A : nat) (ns : list nat) : list nat := lset ns A (nth A ns 0 / 2 + 1).
    Definition leqb (a b : list nat) : bool := if list_eq_dec Nat.eq_dec a b then true else false.
    Definition fft_by_reference (be : backend) (A : nat) (dims : list nat) (ib ob : ptr) (ne1 : bool) (sc : R) (bi bo : blk) (m : st R) : option (st R) :=
      assert leqb (b_size bi) (match be_kind be with C2R => halve A dims | _ => dims end) ;;
      assert leqb (b_size bo) (match be_kind be with R2C => halve A dims | _ => dims end) ;;
      ws_out_of_place be ib ob ne1 sc bi bo m.
    Definition fft_in_place (be : backend) (dims : list nat) (ib : ptr) (ne1 : bool) (sc : R) (b : blk) (m : st R) : option (st R) :=
      assert leqb (b_size b) dims ;;
      ws_in_place be ib ne1 sc b m.
    (** Fftm::operator()(in, out) (fft.hpp 396-417): [gi] and [go] are the
        extents of the views, [bi] and [bo] their local blocks.  [par] is None
        if neither view is distributed; otherwise it holds the number of
        subblocks of each along the axis, and the offsets and lengths of
        global_domain of each.  Exceptions are None. *)
    Definition pair_dec : forall a b : nat * nat, {a = b} + {a <> b}.
    Proof. repeat decide equality. Defined.
    Definition par_ok (par : option ((nat * nat) * (list (nat * nat) * list (nat * nat)))) : bool :=
      match par with
      | None => true
      | Some ((si, so), (di, do)) => (si =? 1) && (so =? 1) && (if list_eq_dec pair_dec di do then true else false)
      end.
    Definition fftm_by_reference (be : backend) (axis : nat) (dims : list nat) (ib ob : ptr) (ne1 : bool) (sc : R)
        (gi go : list nat) par (bi bo : blk) (m : st R) : option (st R) :=
      assert leqb gi (match be_kind be with C2R => halve axis dims | _ => dims end) ;;
      assert leqb go (match be_kind be with R2C => halve axis dims | _ => dims end) ;;
      assert par_ok par ;;
      ws_out_of_place be ib ob ne1 sc bi bo m.
    (** Fftm::operator()(inout) (fft.hpp 420-431); [par] is the number of
        subblocks along the axis. *)
    Definition fftm_in_place (be : backend) (dims : list nat) (ib : ptr) (ne1 : bool) (sc : R)
        (g : list nat) (par : option nat) (b : blk) (m : st R) : option (st R) :=
      assert leqb g dims ;;
      assert match par with None => true | Some s => s =? 1 end ;;
      ws_in_place be ib ne1 sc b m.
  End Exec.
End Wrapper.

(** * Specification *)

(** The index tuples of an array of extents [ns]. *)
Definition ixs (ns : list nat) (i : list nat) : Prop := Forall2 lt i ns.
(** The extents of the half spectrum of an array whose real dimension is [A]. *)
Definition half_at (A : nat) (ns : list nat) : list nat :=
  map (fun d => if d =? A then nth d ns 0 / 2 + 1 else nth d ns 0) (seq 0 (length ns)).

(** A matrix of [k] lines of [n] elements along dimension [axis]; also the
    index of element [n] of line [k]. *)
Definition line (axis : nat) (n k : nat) : list nat := if axis =? 0 then [n; k] else [k; n].

Section Spec.
  Context (R : CRing) (t : trig R).

  (** The discrete Fourier transform over any number of dimensions. *)
  Fixpoint DFTs (e : Z) (ns : list nat) (x : list nat -> Cr R) (w : list nat) : Cr R :=
    match ns, w with
    | n :: ns', k :: w' =>
        sum (fun j => (DFTs e ns' (fun i => x (j :: i)) w' * sin_cos R t n (e * Z.of_nat j * Z.of_nat k)%Z)%cr) n
    | _, _ => x []
    end.
  (** The index of the opposite frequency; an array with Hermitian symmetry
      (the spectrum of a real array). *)
  Fixpoint opposite (ns i : list nat) : list nat :=
    match ns, i with n :: ns', k :: i' => (n - k) mod n :: opposite ns' i' | _, _ => [] end.
  Definition hermitian (ns : list nat) (X : list nat -> Cr R) : Prop :=
    forall i, ixs ns i -> X (opposite ns i) = cconj R (X i).

  (** The cells of the elements of an array; from [m] to [m'] only cells in
      [P] changed, and what could be written still can. *)
  Definition touches {J} (dJ : J -> Prop) (p : ptr) (a : J -> Z) (c : cell) : Prop := exists j, dJ j /\ In c (cells p (a j)).
  Definition changed (m m' : st R) (P : cell -> Prop) : Prop :=
    (forall c, ~ P c -> rd R m' c = rd R m c) /\ (forall p i, writable R m p i -> writable R m' p i).

  (** What the manual of FFTW promises for a new-array execute function
      (section 4.6): a plan computes the transform over the dimensions it was
      made for, from arrays with the planned strides, provided that input and
      output are the same array if and only if they were when planning, and
      are aligned like the arrays used for planning (here: to [va] bytes)
      unless it was made with FFTW_UNALIGNED.  Only the output is written,
      except that a complex-to-real transform without FFTW_PRESERVE_INPUT may
      use its input as scratch space. *)
  Definition pl_ns (pl : plan) : list nat := map (fun d => Z.to_nat (d_n d)) (pl_dims pl).
  Definition pl_is (pl : plan) : list Z := map d_is (pl_dims pl).
  Definition pl_os (pl : plan) : list Z := map d_os (pl_dims pl).
  Definition pl_in (pl : plan) : list nat :=
    match pl_kind pl with C2R => half_at (length (pl_dims pl) - 1) (pl_ns pl) | _ => pl_ns pl end.
  Definition pl_out (pl : plan) : list nat :=
    match pl_kind pl with R2C => half_at (length (pl_dims pl) - 1) (pl_ns pl) | _ => pl_ns pl end.
  Definition array_of_complex (p : ptr) : Prop := match p with Inter _ => True | _ => False end.
  Definition documented (ssz va : Z) (exec : plan -> ptr -> ptr -> st R -> option (st R)) : Prop :=
    forall pl p q X m,
      Forall (fun d => 0 < d_n d)%Z (pl_dims pl) ->
      match pl_kind pl with R2C => real_ptr p | _ => array_of_complex p end ->
      match pl_kind pl with C2R => real_ptr q | _ => array_of_complex q end ->
      (if pl_same pl then p = q /\ pl_is pl = pl_os pl
       else disj (ixs (pl_in pl)) p (ats (pl_is pl)) (ixs (pl_out pl)) q (ats (pl_os pl))) ->
      (f_unaligned (pl_flags pl) = false -> address ssz p mod va = 0 /\ address ssz q mod va = 0)%Z ->
      dist (ixs (pl_out pl)) q (ats (pl_os pl)) ->
      match pl_kind pl with C2R => hermitian (pl_ns pl) X | _ => True end ->
      holds R m (ixs (pl_in pl)) p (ats (pl_is pl)) X ->
      (pl_kind pl = C2R -> f_preserve (pl_flags pl) = false -> room R m (ixs (pl_in pl)) p (ats (pl_is pl))) ->
      room R m (ixs (pl_out pl)) q (ats (pl_os pl)) ->
      exists m', exec pl p q m = Some m' /\
        holds R m' (ixs (pl_out pl)) q (ats (pl_os pl))
          (fun w => match pl_kind pl with
                    | C2C => DFTs (pl_sign pl) (pl_ns pl) X w
                    | R2C => DFTs (-1) (pl_ns pl) X w
                    | C2R => ofR R (fst (DFTs 1 (pl_ns pl) X w))
                    end) /\
        changed m m' (fun c => touches (ixs (pl_out pl)) q (ats (pl_os pl)) c \/
          (pl_kind pl = C2R /\ f_preserve (pl_flags pl) = false /\ touches (ixs (pl_in pl)) p (ats (pl_is pl)) c)).

  (** A library that keeps this promise: it computes the sums (used to show
      that [documented] can be met, and for the examples). *)
  Definition spectrum (pl : plan) (p : ptr) (m : st R) (i : list nat) : Cr R :=
    let g j := match get R m p (ats (pl_is pl) j) with Some v => v | None => 0%cr end in
    match pl_kind pl with
    | C2R => if forallb (fun '(k, n) => k <? n) (combine i (pl_in pl)) then g i else cconj R (g (opposite (pl_ns pl) i))
    | _ => g i
    end.
  Definition reference (pl : plan) (p q : ptr) (m : st R) : option (st R) :=
    let X := spectrum pl p m in
    each (fun w m' => put R m' q (ats (pl_os pl) w)
            (DFTs (match pl_kind pl with C2C => pl_sign pl | R2C => -1 | C2R => 1 end) (pl_ns pl) X w)) (all_ix (pl_out pl)) m.
End Spec.

(** A configuration: the alignment of allocations is a multiple of the size
    of a complex number and of the alignment FFTW's plans rely on, which the
    32-byte aligned buffers used for planning have. *)
Definition config (ssz AL va : Z) : Prop :=
  (0 < ssz /\ 0 < AL /\ 0 < va /\ AL mod (2 * ssz) = 0 /\ AL mod va = 0 /\ 32 mod va = 0)%Z.
(** A buffer of [n] elements, 32-byte aligned and writable. *)
Definition buffer (R : CRing) (ssz : Z) (m : st R) (p : ptr) (n : Z) : Prop :=
  (address ssz p mod 32 = 0)%Z /\ room R m (fun i => 0 <= i < n)%Z p (fun i => i).
(** A block with elements of its own in every position. *)
Definition sized (b : blk) (ns : list nat) : Prop := b_size b = ns /\ length (b_stride b) = length ns.
(** The memory of a block's elements; the memory of a buffer of [n] elements;
    memory that does not overlap. *)
Definition elements (b : blk) : cell -> Prop := touches (ixs (b_size b)) (b_ptr b) (ats (b_stride b)).
Definition storage (p : ptr) (n : Z) : cell -> Prop := touches (fun i => 0 <= i < n)%Z p (fun i => i).
Definition separate (P Q : cell -> Prop) : Prop := forall c, P c -> Q c -> False.
(** The memory a call works on: the output block's elements are distinct and
    writable, the object's buffers ([Ni] and [No] elements) are as allocated,
    and none of the four overlap. *)
Definition memory (R : CRing) (ssz : Z) (m : st R) (bi bo : blk) (ib : ptr) (Ni : Z) (ob : ptr) (No : Z) : Prop :=
  room R m (ixs (b_size bo)) (b_ptr bo) (ats (b_stride bo)) /\
  dist (ixs (b_size bo)) (b_ptr bo) (ats (b_stride bo)) /\
  buffer R ssz m ib Ni /\ buffer R ssz m ob No /\
  separate (elements bi) (elements bo) /\ separate (elements bi) (storage ib Ni) /\ separate (elements bi) (storage ob No) /\
  separate (elements bo) (storage ib Ni) /\ separate (elements bo) (storage ob No) /\ separate (storage ib Ni) (storage ob No).
(** The same for a transform in place. *)
Definition memory1 (R : CRing) (ssz : Z) (m : st R) (b : blk) (ib : ptr) (Ni : Z) : Prop :=
  room R m (ixs (b_size b)) (b_ptr b) (ats (b_stride b)) /\
  dist (ixs (b_size b)) (b_ptr b) (ats (b_stride b)) /\
  buffer R ssz m ib Ni /\ separate (elements b) (storage ib Ni).
