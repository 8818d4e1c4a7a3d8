(** Model of direct data access (src/ovxx/dda/accessor.hpp,
    block_copy.hpp, src/ovxx/adjust_layout.hpp, src/vsip/dda.hpp).
    Blocks are the views of Views.v.  Simplifications: local maps; host
    memory only; the requested layout has the block's dimension; one memory
    cell per element (storage formats are in Storage.v); the temporary
    buffer does not overlap the block. *)
From Coq Require Import ZArith List Lia Bool.
From Verif Require Import Base Domain Traversal Layout Views.
Import ListNotations.
Open Scope Z_scope.

(** ** What the type of a block says about its layout (get_block_layout) *)

(** vsip/layout.hpp 43-63. *)
Definition is_unit (p : packing) : bool := match p with P_any => false | _ => true end.
(** sliced.hpp 455-484 (Sliced_order): the order, and unit_stride_preserved. *)
Definition sliced_order (o : order) (D fixed : nat) : order * bool :=
  match D with
  | 2%nat => ([0%nat], negb (Nat.eqb fixed (dim_ o 1)))
  | _ => (let lt a b := if Nat.ltb a b then [0;1]%nat else [1;0]%nat in
          if Nat.eqb fixed (dim_ o 0) then lt (dim_ o 1) (dim_ o 2)
          else if Nat.eqb fixed (dim_ o 1) then lt (dim_ o 0) (dim_ o 2)
          else lt (dim_ o 0) (dim_ o 1),
          negb (Nat.eqb fixed (dim_ o 2)))
  end.
(** permuted.hpp 124-150. *)
Definition permute_order (p o : order) : order := [dim_ o (dim_ p 0); dim_ o (dim_ p 1); dim_ o (dim_ p 2)].
(** subset.hpp 329-338, sliced.hpp 630-650, 656-673, diag.hpp 154-163,
    transposed.hpp 168-194, permuted.hpp 181-194; the stored block has the
    order and packing of its declaration. *)
Fixpoint type_layout (o0 : order) (p0 : packing) (v : view) : order * packing :=
  match v with
  | Root _ _ => (o0, p0)
  | Subset _ u => (fst (type_layout o0 p0 u), P_any)
  | Sliced D _ u =>
      let '(o, p) := type_layout o0 p0 u in
      let '(o', keep) := sliced_order o (dim u) D in
      (o', if is_unit p && keep then P_unit else P_any)
  | Sliced2 D1 D2 _ _ u =>
      let '(o, p) := type_layout o0 p0 u in
      ([0%nat], if is_unit p && negb (Nat.eqb D1 (dim_ o 2)) && negb (Nat.eqb D2 (dim_ o 2)) then P_unit else P_any)
  | Diag _ u => ([0%nat], P_any)
  | Transposed u => let o := fst (type_layout o0 p0 u) in ([dim_ o 1; dim_ o 0], P_any)
  | Permuted p u => (permute_order p (fst (type_layout o0 p0 u)), P_any)
  end.

(** ** Choosing an access *)

(** A request: dimension order (None = any_type) and packing. *)
Record request := { r_order : option order; r_packing : packing }.
Definition packing_eqb (p q : packing) : bool :=
  match p, q with
  | P_any, P_any | P_unit, P_unit | P_dense, P_dense => true
  | P_aligned A, P_aligned B => A =? B
  | _, _ => false
  end.
Definition order_eqb (a b : order) : bool := if list_eq_dec Nat.eq_dec a b then true else false.
(** adjust_layout.hpp 26-44, 123-140: maybe_layout_compatible. *)
Definition maybe_compatible (rq : request) (o : order) : bool :=
  match r_order rq with None => true | Some ro => order_eqb ro o end.
(** adjust_layout.hpp 47-55, 142-149. *)
Definition layout_compatible (rq : request) (o : order) (p : packing) : bool :=
  maybe_compatible rq o &&
  (packing_eqb (r_packing rq) p || packing_eqb (r_packing rq) P_any ||
   packing_eqb (r_packing rq) P_unit && is_unit p).

(** accessor.hpp 44-115: is_compatible<L>(block); [base] is the address of
    block.ptr() in bytes, [elem] the element size. *)
Definition is_compatible (rq : request) (o : order) (D : nat) (size stride_ : nat -> Z) (base elem : Z) : bool :=
  match r_order rq with
  | None => false
  | Some ro =>
    if negb (order_eqb o ro) then false else
    let d0 := dim_ o 0 in let d1 := dim_ o 1 in let d2 := dim_ o 2 in
    match r_packing rq with
    | P_unit =>
        match D with 1%nat => stride_ 0%nat =? 1 | 2%nat => stride_ d1 =? 1 | _ => stride_ d2 =? 1 end
    | P_dense =>
        match D with
        | 1%nat => stride_ 0%nat =? 1
        | 2%nat => (stride_ d1 =? 1) && ((stride_ d0 =? s64 (size d1)) || (size d0 =? 1))
        | _ => (stride_ d2 =? 1)
               && ((stride_ d1 =? s64 (size d2)) || ((size d1 =? 1) && (size d0 =? 1)))
               && ((stride_ d0 =? s64 (u64 (size d1 * size d2))) || (size d0 =? 1))
        end
    | P_aligned A =>
        if negb (base mod A =? 0) then false else
        match D with
        | 1%nat => stride_ 0%nat =? 1
        | 2%nat => (stride_ d1 =? 1) && (u64 (stride_ d0 * elem) mod A =? 0)
        | _ => (stride_ d2 =? 1) && (u64 (stride_ d1 * elem) mod A =? 0) && (u64 (stride_ d0 * elem) mod A =? 0)
        end
    | P_any => true
    end
  end.

(** accessor.hpp 211-233 for local blocks; [copy] is the policy's flag. *)
Inductive access := Direct | MaybeDirect | Copy.
Definition get_access (rq : request) (o : order) (p : packing) (copy : bool) : access :=
  if negb copy && maybe_compatible rq o then
    (if layout_compatible rq o p then Direct else MaybeDirect)
  else Copy.
(** accessor.hpp 376-382: the layout of the temporary. *)
Definition copy_layout (rq : request) (o : order) (ext : list Z) : option applied :=
  make_layout (match r_order rq with Some ro => ro | None => o end)
              (match r_packing rq with P_unit | P_any => P_dense | p => p end) ext.

(** Where the pointer points: into the block, or at the temporary. *)
Inductive window := InBlock | InBuffer (l : applied).
(** accessor.hpp 262-307, 372-444, 542-616. *)
Definition open_window (rq : request) (o0 : order) (p0 : packing) (v : view) (copy : bool) (base elem : Z) : option window :=
  let '(o, p) := type_layout o0 p0 v in
  match get_access rq o p copy with
  | Direct => Some InBlock
  | MaybeDirect =>
      if is_compatible rq o (dim v) (vsize v) (vstride v) (base + ptr v * elem) elem then Some InBlock
      else l <- copy_layout rq o (sizes v) ;; Some (InBuffer l)
  | Copy => l <- copy_layout rq o (sizes v) ;; Some (InBuffer l)
  end.
(** ptr() and stride(d): element offset from the stored block's (or the
    temporary's) first element. *)
Definition wptr (v : view) (w : window) : Z := match w with InBlock => ptr v | InBuffer _ => 0 end.
Definition wstride (v : view) (w : window) (d : nat) : Z :=
  match w with InBlock => vstride v d | InBuffer l => stride l d end.

(** ** Synchronisation *)
Section Sync.
Context {V : Type}.

Fixpoint each {S A} (f : A -> S -> option S) (l : list A) (s : S) : option S :=
  match l with [] => Some s | x :: r => t <- f x s ;; each f r t end.
(** The indices of block_copy's loop: [for (Index<D> idx; valid(ext, idx);
    next(ext, idx))], row-major. *)
Definition row_order (D : nat) : list nat := seq 0 D.
Definition indices (fuel : nat) (v : view) : option (list (list Z)) :=
  l <- traverse fuel (row_order (dim v)) (map Z.to_nat (sizes v)) (repeat 0%nat (dim v)) ;;
  Some (map (map Z.of_nat) l).
(** block_copy.hpp 263-275: block to memory. *)
Definition copy_in (fuel : nat) (v : view) (l : applied) (m b : mem V) : option (mem V) :=
  ix <- indices fuel v ;;
  each (fun i b => x <- get v m i ;; a <- index l i ;; mstore b a x) ix b.
(** block_copy.hpp 32-49, 292-300: memory to block. *)
Definition copy_out (fuel : nat) (v : view) (l : applied) (m b : mem V) : option (mem V) :=
  ix <- indices fuel v ;;
  each (fun i m => a <- index l i ;; x <- mload b a ;; put v m i x) ix m.

Record policy := { p_in : bool; p_out : bool }.
(** The state of a Data object: the block's memory, the temporary's, and
    dirty_. *)
Record state := mk { blk : mem V; buf : mem V; dirty : bool }.

(** Constructor: accessor.hpp 400-411, 570-575 (sync_in). *)
Definition open (fuel : nat) (P : policy) (v : view) (w : window) (m b : mem V) : option state :=
  match w with
  | InBlock => Some (mk m b false)
  | InBuffer l => if p_in P then b' <- copy_in fuel v l m b ;; Some (mk m b' false) else Some (mk m b false)
  end.
(** sync_out: 417-420 checks dirty_ ([check] = true); 583-587 does not. *)
Definition sync_out (fuel : nat) (P : policy) (check : bool) (v : view) (w : window) (s : state) : option state :=
  match w with
  | InBlock => Some s
  | InBuffer l =>
      if p_out P && (dirty s || negb check)
      then m <- copy_out fuel v l (blk s) (buf s) ;; Some (mk m (buf s) (dirty s)) else Some s
  end.
(** The user's code: reads through a const pointer, writes through the
    non-const one (ptr() sets dirty_, 424), or calls sync_out(). *)
Inductive op := PRead (i : list Z) | PWrite (i : list Z) (x : V) | SyncOut.
Definition addr (v : view) (w : window) (i : list Z) : Z := wptr v w + dot_strides (wstride v w) 0 i.
Definition exec (fuel : nat) (P : policy) (check : bool) (v : view) (w : window) (s : state) (o : op) : option (state * list V) :=
  match o, w with
  | PRead i, InBlock => x <- mload (blk s) (addr v w i) ;; Some (s, [x])
  | PRead i, InBuffer _ => x <- mload (buf s) (addr v w i) ;; Some (s, [x])
  | PWrite i x, InBlock => m <- mstore (blk s) (addr v w i) x ;; Some (mk m (buf s) true, [])
  | PWrite i x, InBuffer _ => b <- mstore (buf s) (addr v w i) x ;; Some (mk (blk s) b true, [])
  | SyncOut, _ => s' <- sync_out fuel P check v w s ;; Some (s', [])
  end.
Fixpoint run (fuel : nat) (P : policy) (check : bool) (v : view) (w : window) (s : state) (l : list op) : option (state * list V) :=
  match l with
  | [] => Some (s, [])
  | o :: r => a <- exec fuel P check v w s o ;; t <- run fuel P check v w (fst a) r ;; Some (fst t, snd a ++ snd t)
  end.
(** The life of a Data object: constructor, user code, destructor
    (sync_out); the block's memory afterwards and the values read. *)
Definition session (fuel : nat) (P : policy) (check : bool) (v : view) (w : window) (m b : mem V) (l : list op) : option (mem V * list V) :=
  s <- open fuel P v w m b ;;
  t <- run fuel P check v w s l ;;
  s' <- sync_out fuel P check v w (fst t) ;;
  Some (blk s', snd t).

(** * Specification *)

(** The elements as the user sees them; None = unspecified. *)
Definition elems := list Z -> option V.
Definition set (f : elems) (i : list Z) (x : V) : elems := fun j => if list_eq_dec Z.eq_dec j i then Some x else f j.
Fixpoint after (f : elems) (l : list op) : elems :=
  match l with [] => f | PWrite i x :: r => after (set f i x) r | _ :: r => after f r end.
(** The values the reads return. *)
Fixpoint reads (f : elems) (l : list op) : list (option V) :=
  match l with
  | [] => []
  | PRead i :: r => f i :: reads f r
  | PWrite i x :: r => reads (set f i x) r
  | SyncOut :: r => reads f r
  end.
Definition op_in (ext : list Z) (o : op) : Prop :=
  match o with PRead i | PWrite i _ => in_range ext i | SyncOut => True end.
Definition writes (o : op) : bool := match o with PWrite _ _ => true | _ => false end.
(** [r] is a possible result where [e] is specified. *)
Definition agrees (e : option V) (r : V) : Prop := forall x, e = Some x -> r = x.
(** Memory of [n] elements. *)
Definition allocated (m : mem V) (n : Z) : Prop := forall a, 0 <= a < n -> exists y, m a = Some y.
(** A temporary is a block of its own of the view's extent. *)
Definition window_ok (v : view) (w : window) (b : mem V) : Prop :=
  match w with InBlock => True | InBuffer l => stored (sizes v) l /\ allocated b (total_size l) end.
(** Cells that no index of the view names are as before. *)
Definition rest_same (v : view) (m m' : mem V) : Prop :=
  forall a, (forall i r, in_range (sizes v) i -> names v i r -> index (root_layout v) r <> Some a) -> m' a = m a.
End Sync.
Arguments op : clear implicits.

(** The position of [i] in the dense order [o] of the extent. *)
Definition rank (o : order) (ext i : list Z) : Z := fold_left (fun acc d => acc * at_ ext d + at_ i d) o 0.
(** What a packing promises about base address, strides and extent. *)
Definition promise (o : order) (p : packing) (ext : list Z) (st : nat -> Z) (base elem : Z) : Prop :=
  match p with
  | P_any => True
  | P_unit => st (last o 0%nat) = 1
  | P_dense => forall i, in_range ext i -> dot_strides st 0 i = rank o ext i
  | P_aligned A => st (last o 0%nat) = 1 /\
      forall i, in_range ext i -> at_ i (last o 0%nat) = 0 -> (base + dot_strides st 0 i * elem) mod A = 0
  end.
