(** Model of the chained parallel assignment
    (src/ovxx/parallel/assign_chain.hpp) between two distributed blocks of
    the same D-dimensional domain, on any set of processors, with the
    message passing it uses (src/ovxx/mpi/chain_builder.hpp,
    communicator.hpp).
    Each processor's local subblock is storage addressed by element
    offsets; the offset of a local index is its dot product with the
    strides of the local block.  Simplifications: the two blocks are
    distinct storage; offsets do not overflow (the int stride and unsigned
    length parameters of Chain_builder::add are not narrowed); the copy
    of a local sub-view is done element by element. *)
From Coq Require Import List Arith ZArith Lia Bool.
From Verif Require Import Base Dist Domain Traversal Map.
Import ListNotations.
Local Open Scope nat_scope.

(** ** Applied maps: Map (map.hpp) or Replicated_map (replicated_map.hpp) *)
Record amap := { a_dims : dims; a_pvec : list nat; a_rep : bool }.
Definition a_ext (a : amap) : list nat := ext_of (a_dims a).

(** subblock(pr), the processors of a subblock. *)
Definition a_subblock (a : amap) (pr : nat) : option nat :=
  if a_rep a then rep_subblock (a_pvec a) pr else map_subblock (a_dims a) (a_pvec a) pr.
Definition a_processors (a : amap) (sb : nat) : option (list nat) :=
  if a_rep a then rep_processors (a_pvec a) sb else map_processors (a_dims a) (a_pvec a) sb.
(** [*processor_begin(sb)] *)
Definition a_first (a : amap) (sb : nat) : option nat :=
  l <- a_processors a sb ;; hd_error l.
(** map_traits.hpp 63-75: processor_has_block. *)
Definition processor_has_block (a : amap) (pr sb : nat) : option bool :=
  l <- a_processors a sb ;; Some (existsb (fun x => x =? pr) l).
(** impl_proc_from_rank(0 .. impl_working_size()-1): map.hpp 234-235,
    281-282; replicated_map.hpp 197-203. *)
Definition a_ranks (a : amap) : list nat :=
  if a_rep a then a_pvec a
  else firstn (Nat.min (map_num_subblocks (a_dims a)) (length (a_pvec a))) (a_pvec a).

(** Patches: map.hpp 862-1063; replicated_map.hpp 150-172. *)
Definition whole_dom (a : amap) : list (nat * nat) := map (fun n => (0, n)) (a_ext a).
Definition a_num_patches (a : amap) (sb : nat) : option nat :=
  if a_rep a then assert (sb =? 0) ;; Some 1 else map_num_patches (a_dims a) sb.
Definition a_gdom (a : amap) (sb p : nat) : option (list (nat * nat)) :=
  if a_rep a then assert ((sb =? 0) && (p =? 0)) ;; Some (whole_dom a)
  else map_global_domain (a_dims a) sb p.
Definition a_ldom (a : amap) (sb p : nat) : option (list (nat * nat)) :=
  if a_rep a then assert ((sb =? 0) && (p =? 0)) ;; Some (whole_dom a)
  else map_local_domain (a_dims a) sb p.
Definition a_lext (a : amap) (sb : nat) : option (list nat) :=
  if a_rep a then assert (sb =? 0) ;; Some (a_ext a) else map_subblock_extent (a_dims a) sb.
Definition a_gfl (a : amap) (sb : nat) (l : list nat) : option (list nat) :=
  if a_rep a then assert (sb =? 0) ;; Some l else map_global_from_local_index (a_dims a) sb l.

(** A Domain<D> of unit strides. *)
Definition zdom (b : list (nat * nat)) : list dom :=
  map (fun fl => mkdom (Z.of_nat (fst fl)) 1 (Z.of_nat (snd fl))) b.

(** ** Chains *)
Definition zdim (l : list Z) (d : nat) : Z := nth d l 0%Z.
Definition ddim (l : list dom) (d : nat) : dom := nth d l (mkdom 0 1 0).
(** A strided record: MPI_Type_vector(length,1,stride) at an offset
    (chain_builder.hpp 43-55). *)
Definition record (o stride len : Z) : list Z :=
  map (fun i => (o + Z.of_nat i * stride)%Z) (seq 0 (Z.to_nat len)).
(** chain_builder.hpp 57-100: one record per outer index. *)
Definition record2 (o s0 l0 s1 l1 : Z) : list (list Z) :=
  map (fun i => record (o + Z.of_nat i * s0)%Z s1 l1) (seq 0 (Z.to_nat l0)).
(** assign_chain.hpp 51-105: chain_add<O> for 1, 2, 3 dimensions.  The
    result is the list of records, each a list of element offsets. *)
Definition chain_add (O : list nat) (d : list dom) (st : list Z) : option (list (list Z)) :=
  match O with
  | [d0] =>
      assert (d0 =? 0) ;;
      Some [record (dfirst (ddim d d0) * zdim st d0)
                   (dstride (ddim d d0) * zdim st d0) (dlen (ddim d d0))]
  | [d0; d1] =>
      Some (record2 (dfirst (ddim d d0) * zdim st d0 + dfirst (ddim d d1) * zdim st d1)
                    (dstride (ddim d d0) * zdim st d0) (dlen (ddim d d0))
                    (dstride (ddim d d1) * zdim st d1) (dlen (ddim d d1)))
  | [d0; d1; d2] =>
      Some (flat_map (fun i =>
        record2 ((dfirst (ddim d d0) + Z.of_nat i * dstride (ddim d d0)) * zdim st d0
                 + dfirst (ddim d d1) * zdim st d1 + dfirst (ddim d d2) * zdim st d2)
                (dstride (ddim d d1) * zdim st d1) (dlen (ddim d d1))
                (dstride (ddim d d2) * zdim st d2) (dlen (ddim d d2)))
        (seq 0 (Z.to_nat (dlen (ddim d d0)))))
  | _ => None
  end.

(** Loops that append to a list. *)
Fixpoint collect {A} (i k : nat) (f : nat -> option (list A)) : option (list A) :=
  match k with
  | 0 => Some []
  | S k' => a <- f i ;; b <- collect (i + 1) k' f ;; Some (a ++ b)
  end.
Fixpoint collectL {A B} (l : list A) (f : A -> option (list B)) : option (list B) :=
  match l with
  | [] => Some []
  | x :: r => a <- f x ;; b <- collectL r f ;; Some (a ++ b)
  end.

(** assign_chain.hpp 416-440: the records sent from [rsb] to [lsb]. *)
Definition send_chain (O : list nat) (lhs rhs : amap) (rst : list Z) (lsb rsb : nat)
    : option (list (list Z)) :=
  nd <- a_num_patches lhs lsb ;;
  collect 0 nd (fun dp =>
    ld <- a_gdom lhs lsb dp ;;
    ns <- a_num_patches rhs rsb ;;
    collect 0 ns (fun sp =>
      rd <- a_gdom rhs rsb sp ;;
      rl <- a_ldom rhs rsb sp ;;
      i <- intersectD (zdom rd) (zdom ld) ;;
      match i with
      | None => Some []
      | Some intr => sd <- apply_intrD (zdom rl) (zdom rd) intr ;; chain_add O sd rst
      end)).
(** assign_chain.hpp 511-537: the records received into [lsb] from [rsb]. *)
Definition recv_chain (O : list nat) (lhs rhs : amap) (lst : list Z) (lsb rsb : nat)
    : option (list (list Z)) :=
  nd <- a_num_patches lhs lsb ;;
  collect 0 nd (fun dp =>
    ld <- a_gdom lhs lsb dp ;;
    ll <- a_ldom lhs lsb dp ;;
    ns <- a_num_patches rhs rsb ;;
    collect 0 ns (fun sp =>
      rd <- a_gdom rhs rsb sp ;;
      i <- intersectD (zdom ld) (zdom rd) ;;
      match i with
      | None => Some []
      | Some intr => rdm <- apply_intrD (zdom ll) (zdom ld) intr ;; chain_add O rdm lst
      end)).
(** assign_chain.hpp 573-601: the (source, destination) local domains
    copied on one processor. *)
Definition copy_records (lhs rhs : amap) (lsb rsb : nat) : option (list (list dom * list dom)) :=
  nd <- a_num_patches lhs lsb ;;
  collect 0 nd (fun dp =>
    ld <- a_gdom lhs lsb dp ;;
    ll <- a_ldom lhs lsb dp ;;
    ns <- a_num_patches rhs rsb ;;
    collect 0 ns (fun sp =>
      rd <- a_gdom rhs rsb sp ;;
      rl <- a_ldom rhs rsb sp ;;
      i <- intersectD (zdom rd) (zdom ld) ;;
      match i with
      | None => Some []
      | Some intr =>
          sd <- apply_intrD (zdom rl) (zdom rd) intr ;;
          rdm <- apply_intrD (zdom ll) (zdom ld) intr ;;
          Some [(sd, rdm)]
      end)).

(** ** The lists built by one processor *)
Definition message (q : nat) (c : list (list Z)) : list (nat * list Z) :=
  match c with [] => [] | _ => [(q, concat c)] end.     (* !builder.is_empty() *)

(** assign_chain.hpp 362-454: build_send_list (rst: this processor's rhs
    strides). *)
Definition build_send_list (O : list nat) (lhs rhs : amap) (rst : list Z) (rank : nat)
    : option (list (nat * list Z)) :=
  match a_subblock rhs rank with
  | None => Some []
  | Some rsb =>
      f <- a_first rhs rsb ;;
      if f =? rank then
        collectL (a_ranks lhs) (fun proc =>
          if proc =? rank then Some []
          else match a_subblock lhs proc with
               | None => Some []
               | Some lsb =>
                   has <- processor_has_block rhs proc rsb ;;
                   if (has : bool) then Some []
                   else c <- send_chain O lhs rhs rst lsb rsb ;; Some (message proc c)
               end)
      else Some []
  end.
(** assign_chain.hpp 461-549: build_recv_list. *)
Definition build_recv_list (O : list nat) (lhs rhs : amap) (lst : list Z) (rank : nat)
    : option (list (nat * list Z)) :=
  match a_subblock lhs rank with
  | None => Some []
  | Some lsb =>
      collectL (a_ranks rhs) (fun proc =>
        if proc =? rank then Some []
        else match a_subblock rhs proc with
             | None => Some []
             | Some rsb =>
                 f <- a_first rhs rsb ;;
                 if f =? proc then
                   has <- processor_has_block rhs rank rsb ;;
                   if (has : bool) then Some []
                   else c <- recv_chain O lhs rhs lst lsb rsb ;; Some (message proc c)
                 else Some []
             end)
  end.
(** assign_chain.hpp 553-621: build_copy_list. *)
Definition build_copy_list (lhs rhs : amap) (rank : nat) : option (list (list dom * list dom)) :=
  match a_subblock lhs rank, a_subblock rhs rank with
  | Some lsb, Some rsb => copy_records lhs rhs lsb rsb
  | _, _ => Some []
  end.

(** ** Execution *)

(** What a processor does, in order (operator() l.312-322): send all
    (non-blocking), copy, receive (blocking), wait for the sends. *)
Inductive action :=
| ASend (q : nat) (offs : list Z)            (* l.627-661 *)
| ACopy (from to : list Z)                   (* l.699-734 *)
| ARecv (p : nat) (offs : list Z)            (* l.665-695 *)
| AWait (q : nat).                           (* l.740-752 *)

(** One local sub-view copy [lhs_lview(dl) = rhs_lview(dr)]: the element
    offsets of both sides in the same traversal order. *)
Definition copy_action (O : list nat) (rst lst : list Z) (c : list dom * list dom)
    : option (list action) :=
  f <- chain_add O (fst c) rst ;;
  t <- chain_add O (snd c) lst ;;
  Some [ACopy (concat f) (concat t)].

Definition program (O : list nat) (lhs rhs : amap) (rst lst : list Z) (rank : nat)
    : option (list action) :=
  s <- build_send_list O lhs rhs rst rank ;;
  c <- build_copy_list lhs rhs rank ;;
  cs <- collectL c (copy_action O rst lst) ;;
  r <- build_recv_list O lhs rhs lst rank ;;
  Some (map (fun m => ASend (fst m) (snd m)) s ++ cs ++
        map (fun m => ARecv (fst m) (snd m)) r ++ map (fun m => AWait (fst m)) s).

Section Exec.
Context {V : Type}.

(** Local storage of the destination, per processor; messages in transit
    from p to q, in order. *)
Record state := {
  prog : nat -> list action;
  lmem : nat -> Z -> V;
  chan : nat -> nat -> list (list V)
}.

Definition wr (m : Z -> V) (av : Z * V) : Z -> V :=
  fun x => if (x =? fst av)%Z then snd av else m x.
Definition wrs (m : Z -> V) (l : list (Z * V)) : Z -> V := fold_left wr l m.

Definition upd {A} (f : nat -> A) (i : nat) (x : A) : nat -> A :=
  fun j => if j =? i then x else f j.
Definition upd2 {A} (f : nat -> nat -> A) (i j : nat) (x : A) : nat -> nat -> A :=
  fun a b => if (a =? i) && (b =? j) then x else f a b.

(** One step of processor [r]; [rmem] is the source's storage, which the
    assignment only reads.  A receive whose posted length differs from the
    message's has no step. *)
Inductive step (rmem : nat -> Z -> V) : state -> state -> Prop :=
| step_send r q offs k s : prog s r = ASend q offs :: k ->
    step rmem s {| prog := upd (prog s) r k; lmem := lmem s;
                   chan := upd2 (chan s) r q (chan s r q ++ [map (rmem r) offs]) |}
| step_copy r from to k s : prog s r = ACopy from to :: k ->
    step rmem s {| prog := upd (prog s) r k;
                   lmem := upd (lmem s) r (wrs (lmem s r) (combine to (map (rmem r) from)));
                   chan := chan s |}
| step_recv r p offs k m c s : prog s r = ARecv p offs :: k -> chan s p r = m :: c ->
    length m = length offs ->
    step rmem s {| prog := upd (prog s) r k;
                   lmem := upd (lmem s) r (wrs (lmem s r) (combine offs m));
                   chan := upd2 (chan s) p r c |}
| step_wait r q k s : prog s r = AWait q :: k -> chan s r q = [] ->
    step rmem s {| prog := upd (prog s) r k; lmem := lmem s; chan := chan s |}.

Inductive steps (rmem : nat -> Z -> V) : nat -> state -> state -> Prop :=
| steps_0 s : steps rmem 0 s s
| steps_S n s t u : steps rmem n s t -> step rmem t u -> steps rmem (S n) s u.
End Exec.
Arguments state : clear implicits.

(** * Specification *)

(** Offset of a local index. *)
Fixpoint off (st : list Z) (l : list nat) : Z :=
  match st, l with
  | s :: st', i :: l' => (Z.of_nat i * s + off st' l')%Z
  | _, _ => 0%Z
  end.

(** Strides that give every index of the extent its own cell (C06/C08
    prove this of the library's layouts). *)
Definition own_cell (ext : list nat) (st : list Z) : Prop :=
  forall i j, in_range ext i -> in_range ext j -> off st i = off st j -> i = j.

(** A map as the library builds it, applied to a domain whose sizes are
    representable. *)
Record amap_ok (a : amap) : Prop := {
  ok_dims : map_ok (a_dims a);
  ok_rep : a_rep a = true -> Forall (fun d => fst d = Whole) (a_dims a);
  ok_pvec : NoDup (a_pvec a);
  ok_len : if a_rep a then 0 < length (a_pvec a)
           else length (a_pvec a) = map_num_subblocks (a_dims a);
  ok_size : Forall (fun d => (Z.of_nat (snd d) < H64)%Z) (a_dims a)
}.

(** The data of processor [pr]'s subblock of a block with map [a] whose
    global contents are [X]. *)
Definition holds {V} (a : amap) (st : nat -> list Z) (mem : nat -> Z -> V) (X : list nat -> V)
    (pr : nat) : Prop :=
  forall sb ext l g, a_subblock a pr = Some sb -> a_lext a sb = Some ext -> in_range ext l ->
    a_gfl a sb l = Some g -> mem pr (off (st pr) l) = X g.

(** Offset [o] in processor [pr]'s storage is the place of global element
    [g]. *)
Definition element_at (a : amap) (st : nat -> list Z) (pr : nat) (o : Z) (g : list nat) : Prop :=
  exists sb ext l, a_subblock a pr = Some sb /\ a_lext a sb = Some ext /\ in_range ext l /\
    a_gfl a sb l = Some g /\ o = off (st pr) l.

(** Cells, in units of T, of the element at offset [o] of a block of
    complex<T> in interleaved storage: (re, im) pairs. *)
Definition interleaved_cells (o : Z) : list Z := [2 * o; 2 * o + 1]%Z.
