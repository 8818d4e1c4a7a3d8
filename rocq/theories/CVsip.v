(** * Products through C-VSIPL

    Model of src/ovxx/cvsip/{block,view,matvec}.hpp: the views of C-VSIPL put
    over a block's data, the evaluators that hand products to a C-VSIPL
    library, and the choice between these, BLAS ([Blas]) and the generic ones
    ([Matvec]).

    The C-VSIPL library is any collection of functions that keeps what the
    C-VSIPL standard promises ([documented]); it is not code of this repository.

    Simplifications: [cv] stands for the evaluators' ct_valid (a
    floating-point type the library has, the same for all operands, direct access to all
    of them); allocation succeeds; the views created are never destroyed (the wrappers
    have no destructor), which costs memory only.  Exact arithmetic
    over a commutative ring, [conj] is the conjugation (identity for real types). *)
From Coq Require Import ZArith List Lia Bool Arith.
From Verif Require Import Base Fir Freqswap Conv Matvec Blas.
Import ListNotations.
Local Open Scope nat_scope.

(** ** Blocks and views of C-VSIPL *)

(** A block of user data: where they are, how many, and whether it is admitted (data may be
    used by the library) or released (only by the user). *)
Record cblock := { cb_ptr : Z; cb_size : Z; cb_admitted : bool }.
(** vsip_blockbind, vsip_cblockbind (block.hpp 57-62, 111-124, ...): the block is released. *)
Definition blockbind (p size : Z) : cblock := {| cb_ptr := p; cb_size := size; cb_admitted := false |}.
(** Views: offset, stride(s), length(s). *)
Record cview1 := { cv_blk : cblock; cv_off : Z; cv_st : Z; cv_len : nat }.
Record cview2 := { cm_blk : cblock; cm_off : Z; cm_sr : Z; cm_rows : nat; cm_sc : Z; cm_cols : nat }.

(** View<1,T,true>(data, offset, stride, size): view.hpp 539-542, 565-573.  The
    block's size is computed with unsigned numbers. *)
Definition view1 (p off st : Z) (n : nat) : cview1 :=
  {| cv_blk := blockbind p (u64 (off + (Z.of_nat n - 1) * st + 1)); cv_off := off; cv_st := st; cv_len := n |}.
(** View<1,T,true>(data, size): 537-538, 561-564. *)
Definition view1_dense (p : Z) (n : nat) : cview1 :=
  {| cv_blk := blockbind p (Z.of_nat n); cv_off := 0; cv_st := 1; cv_len := n |}.
(** const_View<1,T>: 804-815; for complex numbers 817-836, of which the constructor for split storage
    (a pair of pointers) passes only data and size on. *)
Definition const_view1 (split : bool) (p off st : Z) (n : nat) : cview1 :=
  if split then view1_dense p n else view1 p off st n.
(** View<2,T,true>(data, offset, s_r, rows, s_c, cols): 672-678, 703-716. *)
Definition view2 (p off sr : Z) (nr : nat) (sc : Z) (nc : nat) : cview2 :=
  {| cm_blk := blockbind p (u64 (off + (Z.of_nat nr - 1) * sr + (Z.of_nat nc - 1) * sc + 1));
     cm_off := off; cm_sr := sr; cm_rows := nr; cm_sc := sc; cm_cols := nc |}.

Section CVsip.
Context {K : CRing} (conj : K -> K).
Local Open Scope cr_scope.
Implicit Types m : mem K.

(** The functions used: vsip_{c,}vdot, vsip_cvjdot, vsip_{c,}vouter (true: the complex one), vsip_{c,}gemp
    without transposition, vsip_{c,}mprod, vsip_{c,}mvprod. *)
Record library := {
  vdot : cview1 -> cview1 -> mem K -> option K;
  cvjdot : cview1 -> cview1 -> mem K -> option K;
  vouter : bool -> K -> cview1 -> cview1 -> cview2 -> mem K -> option (mem K);
  gemp : K -> cview2 -> cview2 -> K -> cview2 -> mem K -> option (mem K);
  mprod : cview2 -> cview2 -> cview2 -> mem K -> option (mem K);
  mvprod : cview2 -> cview1 -> cview1 -> mem K -> option (mem K) }.
Variable L : library.

(** ** Evaluators (matvec.hpp); [sa], [sb]: the operand is complex in split storage. *)

(** dot: 150-186. *)
Definition dot_cv (sa sb : bool) (a b : v1) m : option K :=
  assert (n1 a =? n1 b)%nat ;;
  vdot L (const_view1 sa (p1 a) 0 (st1 a) (n1 a)) (const_view1 sb (p1 b) 0 (st1 b) (n1 b)) m.
(** dot(a, conj(b)): 189-223. *)
Definition cvjdot_cv (sa sb : bool) (a b : v1) m : option K :=
  assert (n1 a =? n1 b)%nat ;;
  cvjdot L (const_view1 sa (p1 a) 0 (st1 a) (n1 a)) (const_view1 sb (p1 b) 0 (st1 b) (n1 b)) m.
(** outer: 225-266. *)
Definition outer_cv (cplx sa sb : bool) (r : v2) (alpha : K) (a b : v1) m : option (mem K) :=
  assert (n1 a =? nr r)%nat ;; assert (n1 b =? nc r)%nat ;;
  vouter L cplx alpha (const_view1 sa (p1 a) 0 (st1 a) (n1 a)) (const_view1 sb (p1 b) 0 (st1 b) (n1 b))
    (view2 (p2 r) 0 (s0 r) (nr r) (s1 r) (nc r)) m.
(** Vector times matrix: 268-309; the matrix is viewed transposed. *)
Definition vm_cv (sx : bool) (y x : v1) (a : v2) m : option (mem K) :=
  assert (n1 x =? nr a)%nat ;;
  mvprod L (view2 (p2 a) 0 (s1 a) (nc a) (s0 a) (nr a)) (const_view1 sx (p1 x) 0 (st1 x) (n1 x))
    (view1 (p1 y) 0 (st1 y) (n1 y)) m.
(** Matrix times vector: 311-353. *)
Definition mv_cv (sx : bool) (y : v1) (a : v2) (x : v1) m : option (mem K) :=
  assert (n1 x =? nc a)%nat ;;
  mvprod L (view2 (p2 a) 0 (s0 a) (nr a) (s1 a) (nc a)) (const_view1 sx (p1 x) 0 (st1 x) (n1 x))
    (view1 (p1 y) 0 (st1 y) (n1 y)) m.
Definition whole (v : v2) : cview2 := view2 (p2 v) 0 (s0 v) (nr v) (s1 v) (nc v).
(** Matrix times matrix: 355-397. *)
Definition mm_cv (c a b : v2) m : option (mem K) := mprod L (whole a) (whole b) (whole c) m.
(** gemp: 399-440. *)
Definition gemp_cv (c : v2) (alpha : K) (a b : v2) (beta : K) m : option (mem K) :=
  gemp L alpha (whole a) (whole b) beta (whole c) m.

(** ** Dispatch (dispatcher.hpp 95-109; lists: matvec.hpp 33-42, 89-100, 122-132,
    matvec_prod.hpp 26-36): BLAS if valid at compile time ([ct]) and at run time,
    then C-VSIPL if valid ([cv], no run-time condition), then the generic one. *)
Definition prod_mm_c (ct cv : bool) (r a b : v2) m : option (mem K) :=
  assert (nc a =? nr b)%nat ;; assert (nr r =? nr a)%nat ;; assert (nc r =? nc b)%nat ;;
  if ct && mm_rt a b then mm_blas r 1 a b None m
  else if cv then mm_cv r a b m
  else prod_mm conj false (blk2 r) (plain2 (blk2 a)) (plain2 (blk2 b)) m.
Definition prod_mv_c (ct cv sb : bool) (r : v1) (a : v2) (b : v1) m : option (mem K) :=
  assert (nc a =? n1 b)%nat ;; assert (n1 r =? nr a)%nat ;;
  if ct && mv_rt a b then mv_blas r a b m
  else if cv then mv_cv sb r a b m
  else prod_mv (blk1 r) (plain2 (blk2 a)) (plain1 (blk1 b)) m.
Definition prod_vm_c (ct cv sa : bool) (r a : v1) (b : v2) m : option (mem K) :=
  assert (n1 a =? nr b)%nat ;; assert (n1 r =? nc b)%nat ;;
  if ct && vm_rt a b then vm_blas r a b m
  else if cv then vm_cv sa r a b m
  else prod_vm (blk1 r) (plain1 (blk1 a)) (plain2 (blk2 b)) m.
Definition gemp_c (ct cv : bool) (opA opB : mat_op) (alpha : K) (A B : v2) (beta : K) (C : v2) m : option (mem K) :=
  let a := op_view opA A in let b := op_view opB B in
  let direct := negb (is_conj opA) && negb (is_conj opB) in
  if ct && direct && mm_rt a b then mm_blas C alpha a b (Some beta) m
  else if cv && direct then gemp_cv C alpha a b beta m
  else Matvec.gemp conj opA opB alpha (blk2 A) (blk2 B) beta (blk2 C) m.
Definition outer_c (ct cv cplx sa sb : bool) (r : v2) (alpha : K) (a b : v1) m : option (mem K) :=
  if ct && outer_rt a b then (if cplx then outerc_blas conj r alpha a b m else outer_blas conj r alpha a b m)
  else if cv then outer_cv cplx sa sb r alpha a b m
  else outer conj cplx (blk2 r) alpha (plain1 (blk1 a)) (plain1 (blk1 b)) m.

(** * Specification *)

(** The elements of a view. *)
Definition vec (v : cview1) : block1 := {| len := cv_len v; addr1 := fun i => (cb_ptr (cv_blk v) + (cv_off v + Z.of_nat i * cv_st v))%Z |}.
Definition mat (v : cview2) : block2 :=
  {| rows := cm_rows v; cols := cm_cols v; blk := 0;
     addr2 := fun i j => (cb_ptr (cm_blk v) + (cm_off v + Z.of_nat i * cm_sr v) + Z.of_nat j * cm_sc v)%Z |}.
(** What the standard asks of a view handed to the library: it is not empty,
    all its elements are in its block, and, if the library insists ([strict]), the block is admitted. *)
Definition usable1 (strict : bool) (v : cview1) : Prop :=
  0 < cv_len v /\
  (forall i, i < cv_len v -> (0 <= cv_off v + Z.of_nat i * cv_st v < cb_size (cv_blk v))%Z) /\
  (strict = true -> cb_admitted (cv_blk v) = true).
Definition usable2 (strict : bool) (v : cview2) : Prop :=
  0 < cm_rows v /\ 0 < cm_cols v /\
  (forall i j, i < cm_rows v -> j < cm_cols v -> (0 <= cm_off v + Z.of_nat i * cm_sr v + Z.of_nat j * cm_sc v < cb_size (cm_blk v))%Z) /\
  (strict = true -> cb_admitted (cm_blk v) = true).

(** What the standard promises in return, when sizes agree and the result does not
    overlap the arguments. *)
Record documented (strict : bool) : Prop := {
  doc_dot : forall a b m x y, usable1 strict a -> usable1 strict b -> cv_len a = cv_len b ->
    holds1 m (vec a) x -> holds1 m (vec b) y -> vdot L a b m = Some (sum (fun i => x i * y i) (cv_len a));
  doc_jdot : forall a b m x y, usable1 strict a -> usable1 strict b -> cv_len a = cv_len b ->
    holds1 m (vec a) x -> holds1 m (vec b) y -> cvjdot L a b m = Some (sum (fun i => x i * conj (y i)) (cv_len a));
  doc_outer : forall cplx alpha a b r m x y, usable1 strict a -> usable1 strict b -> usable2 strict r ->
    cv_len a = cm_rows r -> cv_len b = cm_cols r -> wf2 m (mat r) -> disjoint21 (mat r) (vec a) -> disjoint21 (mat r) (vec b) ->
    holds1 m (vec a) x -> holds1 m (vec b) y ->
    exists m', vouter L cplx alpha a b r m = Some m' /\ only2 (mat r) m m' /\
      holds2 m' (mat r) (fun i j => alpha * x i * (if cplx then conj (y j) else y j));
  doc_gemp : forall alpha a b beta c m x y z, usable2 strict a -> usable2 strict b -> usable2 strict c ->
    cm_cols a = cm_rows b -> cm_rows c = cm_rows a -> cm_cols c = cm_cols b ->
    wf2 m (mat c) -> disjoint2 (mat c) (mat a) -> disjoint2 (mat c) (mat b) ->
    holds2 m (mat a) x -> holds2 m (mat b) y -> holds2 m (mat c) z ->
    exists m', gemp L alpha a b beta c m = Some m' /\ only2 (mat c) m m' /\
      holds2 m' (mat c) (fun i j => alpha * sum (fun k => x i k * y k j) (cm_cols a) + beta * z i j);
  doc_mprod : forall a b c m x y, usable2 strict a -> usable2 strict b -> usable2 strict c ->
    cm_cols a = cm_rows b -> cm_rows c = cm_rows a -> cm_cols c = cm_cols b ->
    wf2 m (mat c) -> disjoint2 (mat c) (mat a) -> disjoint2 (mat c) (mat b) ->
    holds2 m (mat a) x -> holds2 m (mat b) y ->
    exists m', mprod L a b c m = Some m' /\ only2 (mat c) m m' /\
      holds2 m' (mat c) (fun i j => sum (fun k => x i k * y k j) (cm_cols a));
  doc_mvprod : forall a x y m u w, usable2 strict a -> usable1 strict x -> usable1 strict y ->
    cm_cols a = cv_len x -> cm_rows a = cv_len y ->
    wf1 m (vec y) -> disjoint21 (mat a) (vec y) -> disjoint1 (vec y) (vec x) ->
    holds2 m (mat a) u -> holds1 m (vec x) w ->
    exists m', mvprod L a x y m = Some m' /\ only1 (vec y) m m' /\
      holds1 m' (vec y) (fun i => sum (fun k => u i k * w k) (cm_cols a)) }.
End CVsip.
Arguments library : clear implicits.

(** A library that checks what it is given and is otherwise the generic evaluators: one that
    keeps the promises. *)
Section Reference.
Context {K : CRing} (conj : K -> K) (strict : bool).
Definition ok1 (v : cview1) : bool :=
  (0 <? cv_len v) && forallb (fun i => ((0 <=? cv_off v + Z.of_nat i * cv_st v) && (cv_off v + Z.of_nat i * cv_st v <? cb_size (cv_blk v)))%Z) (seq 0 (cv_len v)) &&
  (negb strict || cb_admitted (cv_blk v)).
Definition ok2 (v : cview2) : bool :=
  (0 <? cm_rows v) && (0 <? cm_cols v) &&
  forallb (fun i => forallb (fun j => let o := (cm_off v + Z.of_nat i * cm_sr v + Z.of_nat j * cm_sc v)%Z in ((0 <=? o) && (o <? cb_size (cm_blk v)))%Z) (seq 0 (cm_cols v))) (seq 0 (cm_rows v)) &&
  (negb strict || cb_admitted (cm_blk v)).
Definition reference : library K := {|
  vdot := fun a b m => assert (ok1 a && ok1 b) ;; dot (plain1 (vec a)) (plain1 (vec b)) m;
  cvjdot := fun a b m => assert (ok1 a && ok1 b) ;; Matvec.cvjdot conj (plain1 (vec a)) (plain1 (vec b)) m;
  vouter := fun cplx alpha a b r m => assert (ok1 a && ok1 b && ok2 r) ;; outer conj cplx (mat r) alpha (plain1 (vec a)) (plain1 (vec b)) m;
  gemp := fun alpha a b beta c m => assert (ok2 a && ok2 b && ok2 c) ;; gemp_exec (mat c) alpha (plain2 (mat a)) (plain2 (mat b)) beta m;
  mprod := fun a b c m => assert (ok2 a && ok2 b && ok2 c) ;; prod_mm conj false (mat c) (plain2 (mat a)) (plain2 (mat b)) m;
  mvprod := fun a x y m => assert (ok2 a && ok1 x && ok1 y) ;; prod_mv (vec y) (plain2 (mat a)) (plain1 (vec x)) m |}.
End Reference.

(** A view's strides are not negative, it is not empty, and it fits the address space. *)
Definition upward1 (v : v1) : Prop := 0 < n1 v /\ (0 <= st1 v)%Z /\ ((Z.of_nat (n1 v) - 1) * st1 v + 1 < W64)%Z.
Definition upward2 (v : v2) : Prop := 0 < nr v /\ 0 < nc v /\ (0 <= s0 v)%Z /\ (0 <= s1 v)%Z /\
  ((Z.of_nat (nr v) - 1) * s0 v + (Z.of_nat (nc v) - 1) * s1 v + 1 < W64)%Z.
