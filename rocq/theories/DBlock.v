(** * Element access to distributed blocks

    Model of ovxx/parallel/distributed_block.hpp (constructors, get, put), of
    the proxies behind view(i) (ovxx/element_proxy.hpp), and of programs in which
    every processor performs the same element accesses.

    Simplifications: one, two and three dimensions are treated alike (an index is
    a list); the local block is a function of the local index defined inside its
    sizes; MPI_Bcast is non-blocking at the root and blocking elsewhere, and the n-th
    broadcast of a processor is matched with the n-th of the root (the ordering
    rule of MPI for collective operations). *)
From Coq Require Import List Arith ZArith Lia Bool.
From Verif Require Import Base Dist Traversal Map ParAssign.
Import ListNotations.
Local Open Scope nat_scope.

(** Map::impl_subblock_from_global_index, impl_local_from_global_index
    (map.hpp 534-597); Replicated_map's, replicated_map.hpp 174-188. *)
Definition a_sfg (a : amap) (g : list nat) : option nat :=
  if a_rep a then Some 0 else map_subblock_from_global_index (a_dims a) g.
Definition a_lfg (a : amap) (g : list nat) : option (list nat) :=
  if a_rep a then Some g else map_local_from_global_index (a_dims a) g.

Section DBlock.
Variable V : Type.
(** The number of processors, impl_comm().size(), and the map of each block. *)
Variables (n : nat) (D : nat -> amap).

(** distributed_block.hpp 47-62: the sizes of the local block: those of the subblock
    of this processor, or of the empty domain. *)
Definition lsize (a : amap) (r : nat) : option (list nat) :=
  match a_subblock a r with
  | Some sb => a_lext a sb
  | None => Some (map (fun _ => 0) (a_ext a))
  end.
Fixpoint in_rangeb (ext i : list nat) : bool :=
  match ext, i with
  | [], [] => true
  | e :: es, x :: xs => (x <? e) && in_rangeb es xs
  | _, _ => false
  end.
Definition index_eqb (a b : list nat) : bool := if list_eq_dec Nat.eq_dec a b then true else false.
(** subblock_->get(l), subblock_->put(l, x): undefined outside the local block. *)
Definition lget (a : amap) (r : nat) (m : list nat -> V) (l : list nat) : option V :=
  ext <- lsize a r ;; assert in_rangeb ext l ;; Some (m l).
Definition lput (a : amap) (r : nat) (m : list nat -> V) (l : list nat) (x : V) : option (list nat -> V) :=
  ext <- lsize a r ;; assert in_rangeb ext l ;; Some (fun i => if index_eqb i l then x else m i).

(** put, 227-262. *)
Definition same_sb (a : amap) (r sb : nat) : bool := match a_subblock a r with Some s => s =? sb | None => false end.
Definition block_put (a : amap) (r : nat) (m : list nat -> V) (g : list nat) (x : V) : option (list nat -> V) :=
  sb <- a_sfg a g ;;
  if same_sb a r sb then (l <- a_lfg a g ;; lput a r m l x) else Some m.

(** get, 145-222.  152-154: no communication. *)
Definition no_comm (a : amap) : bool := a_rep a && (length (a_pvec a) =? n).
(** 156-157: the root of the broadcast. *)
Definition root (a : amap) (g : list nat) : option nat := sb <- a_sfg a g ;; a_first a sb.
(** 160-165: the value the root broadcasts. *)
Definition own_value (a : amap) (r : nat) (m : list nat -> V) (g : list nat) : option V :=
  sb <- a_sfg a g ;; assert same_sb a r sb ;; l <- a_lfg a g ;; lget a r m l.

(** A program over the blocks: what every processor executes.  What it does next may
    depend on the values it got. *)
Inductive prog :=
| Done
| Put (v : nat) (g : list nat) (x : V) (k : prog)
| Get (v : nat) (g : list nat) (k : V -> prog).
(** element_proxy.hpp 31-38: view(i) = x. *)
Definition proxy_set (v : nat) (g : list nat) (x : V) (k : prog) : prog := Put v g x k.
(** 40-42: view1(i) = view2(j). *)
Definition proxy_copy (v : nat) (g : list nat) (w : nat) (h : list nat) (k : prog) : prog := Get w h (fun x => Put v g x k).
(** 49-56: view(i) op= x: the operator returns a value, which is read again. *)
Definition proxy_update (f : V -> V -> V) (v : nat) (g : list nat) (x : V) (k : V -> prog) : prog :=
  Get v g (fun y => Put v g (f y x) (Get v g k)).

(** The state of all processors: their memories, what they have left to do, the
    values they got, the number of broadcasts they took part in; and the
    broadcasts made by their roots. *)
Record state := {
  mem_ : nat -> nat -> list nat -> V;
  todo : nat -> prog;
  got : nat -> list V;
  cnt : nat -> nat;
  posted : nat -> option (nat * V) }.
Inductive outcome := Fail | Wait | Next (s : state).
Definition upd {A} (f : nat -> A) (r : nat) (x : A) : nat -> A := fun i => if i =? r then x else f i.

(** Processor [r] takes a step.  [Fail]: undefined behaviour or unmatched
    broadcasts. *)
Definition step (s : state) (r : nat) : outcome :=
  match todo s r with
  | Done => Wait
  | Put v g x k =>
      match block_put (D v) r (mem_ s r v) g x with
      | None => Fail
      | Some m => Next {| mem_ := upd (mem_ s) r (upd (mem_ s r) v m); todo := upd (todo s) r k; got := got s; cnt := cnt s; posted := posted s |}
      end
  | Get v g k =>
      if no_comm (D v) then
        match lget (D v) r (mem_ s r v) g with
        | None => Fail
        | Some x => Next {| mem_ := mem_ s; todo := upd (todo s) r (k x); got := upd (got s) r (got s r ++ [x]); cnt := cnt s; posted := posted s |}
        end
      else
        match root (D v) g with
        | None => Fail
        | Some pr =>
            if pr =? r then
              match own_value (D v) r (mem_ s r v) g, posted s (cnt s r) with
              | Some x, None =>
                  Next {| mem_ := mem_ s; todo := upd (todo s) r (k x); got := upd (got s) r (got s r ++ [x]);
                          cnt := upd (cnt s) r (S (cnt s r)); posted := upd (posted s) (cnt s r) (Some (pr, x)) |}
              | _, _ => Fail
              end
            else
              match posted s (cnt s r) with
              | None => Wait
              | Some (pr', x) =>
                  if pr' =? pr then
                    Next {| mem_ := mem_ s; todo := upd (todo s) r (k x); got := upd (got s) r (got s r ++ [x]);
                            cnt := upd (cnt s) r (S (cnt s r)); posted := posted s |}
                  else Fail
              end
        end
  end.
(** A schedule: the order in which the processors try to go on. *)
Fixpoint exec (s : state) (sched : list nat) : option state :=
  match sched with
  | [] => Some s
  | r :: rest => match step s r with Fail => None | Wait => exec s rest | Next s' => exec s' rest end
  end.
Definition start (m : nat -> nat -> list nat -> V) (p : prog) : state :=
  {| mem_ := m; todo := fun _ => p; got := fun _ => []; cnt := fun _ => 0; posted := fun _ => None |}.
(** distributed_block.hpp 64-81: every local block is filled with the value. *)
Definition filled (x : nat -> V) : nat -> nat -> list nat -> V := fun _ v _ => x v.

(** * Specification *)

(** One processor with one array for each block. *)
Definition set (X : nat -> list nat -> V) (v : nat) (g : list nat) (x : V) : nat -> list nat -> V :=
  fun w h => if (w =? v) && index_eqb h g then x else X w h.
Fixpoint seq_final (X : nat -> list nat -> V) (p : prog) : nat -> list nat -> V :=
  match p with Done => X | Put v g x k => seq_final (set X v g x) k | Get v g k => seq_final X (k (X v g)) end.
Fixpoint seq_got (X : nat -> list nat -> V) (p : prog) : list V :=
  match p with Done => [] | Put v g x k => seq_got (set X v g x) k | Get v g k => X v g :: seq_got X (k (X v g)) end.
(** Every access is inside its block. *)
Fixpoint prog_ok (U : nat -> Prop) (p : prog) : Prop :=
  match p with
  | Done => True
  | Put v g x k => U v /\ in_range (a_ext (D v)) g /\ prog_ok U k
  | Get v g k => U v /\ in_range (a_ext (D v)) g /\ forall x, prog_ok U (k x)
  end.
(** The memory of processor [r] holds its part of [X]. *)
Definition holds_of (U : nat -> Prop) (X : nat -> list nat -> V) (r : nat) (m : nat -> list nat -> V) : Prop :=
  forall v, U v -> forall sb ext l g, a_subblock (D v) r = Some sb -> a_lext (D v) sb = Some ext -> in_range ext l -> a_gfl (D v) sb l = Some g -> m v l = X v g.
End DBlock.
Arguments Done {V}.
Arguments Put {V}.
Arguments Get {V}.
Arguments mem_ {V}.
Arguments todo {V}.
Arguments got {V}.
Arguments cnt {V}.
Arguments posted {V}.
Arguments Fail {V}.
Arguments Wait {V}.
Arguments Next {V}.
