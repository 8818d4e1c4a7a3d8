(** Model of complex storage formats and of blocks with user storage
    (src/ovxx/storage/traits.hpp, user.hpp, host.hpp, manager.hpp,
    block.hpp).  Memory cells hold scalars; a complex<T> in an array is
    two consecutive scalars (as the reinterpret_casts of the source
    require).  Simplifications: no OpenCL replica; pointers passed by the
    user are not null; the allocator returns a pointer given by the
    environment; element types are complex (real blocks have the array
    format only, and their code is the array case). *)
From Coq Require Import List Arith ZArith Lia Bool.
From Verif Require Import Base.
Import ListNotations.

Section S.
Context {V : Type}.
Definition cplx : Type := V * V.

(** The pointer types of the three formats (traits.hpp 30-103), also the
    union in user_storage (user.hpp 223-230). *)
Inductive sptr := Arr (a : Z) | Int (a : Z) | Spl (re im : Z).
Inductive fmt := F_array | F_interleaved | F_split.
Definition fmt_of (p : sptr) : fmt :=
  match p with Arr _ => F_array | Int _ => F_interleaved | Spl _ _ => F_split end.

Local Notation "a +' i" := (a + Z.of_nat i)%Z (at level 50).

(** storage_traits::get (traits.hpp 42-43, 69-70, 96-97), and the same
    cases of user_storage::get (user.hpp 141-151). *)
Definition sget (m : mem V) (p : sptr) (i : nat) : option cplx :=
  match p with
  | Arr a => x <- mload m (a +' (2 * i)) ;; y <- mload m (a +' (2 * i + 1)) ;; Some (x, y)
  | Int a => x <- mload m (a +' (2 * i)) ;; y <- mload m (a +' (2 * i + 1)) ;; Some (x, y)
  | Spl r s => x <- mload m (r +' i) ;; y <- mload m (s +' i) ;; Some (x, y)
  end.
(** storage_traits::put (44-45, 71-72, 98-99), user_storage::put (152-168). *)
Definition sput (m : mem V) (p : sptr) (i : nat) (v : cplx) : option (mem V) :=
  match p with
  | Arr a => m1 <- mstore m (a +' (2 * i)) (fst v) ;; mstore m1 (a +' (2 * i + 1)) (snd v)
  | Int a => m1 <- mstore m (a +' (2 * i)) (fst v) ;; mstore m1 (a +' (2 * i + 1)) (snd v)
  | Spl r s => m1 <- mstore m (r +' i) (fst v) ;; mstore m1 (s +' i) (snd v)
  end.
(** storage_traits::offset (40-41, 67-68, 94-95). *)
Definition soffset (p : sptr) (i : nat) : sptr :=
  match p with Arr a => Arr (a +' (2 * i)) | Int a => Int (a +' (2 * i)) | Spl r s => Spl (r +' i) (s +' i) end.

(** storage_traits<complex<T>, any_storage_format>::get and put (traits.hpp
    181-215): the index is not used.  (The split case does not compile
    as written; here it does what was meant, for the first element.) *)
Definition any_get (m : mem V) (p : sptr) (i : nat) : option cplx := sget m p 0.
Definition any_put (m : mem V) (p : sptr) (i : nat) (v : cplx) : option (mem V) := sput m p 0 v.

(** ** component.hpp 20-50, 125-133: real() and imag() views *)
Inductive part := Re | Im.
Definition extract (c : part) (v : cplx) : V := match c with Re => fst v | Im => snd v end.
Definition replace_part (c : part) (v : cplx) (x : V) : cplx :=
  match c with Re => (x, snd v) | Im => (fst v, x) end.
(** component.hpp 84-111: get and put. *)
Definition cget (m : mem V) (p : sptr) (c : part) (i : nat) : option V :=
  v <- sget m p i ;; Some (extract c v).
Definition cput (m : mem V) (p : sptr) (c : part) (i : nat) (x : V) : option (mem V) :=
  v <- sget m p i ;; sput m p i (replace_part c v x).
(** component.hpp 29-32, 44-48: get_ptr; the scalar address. *)
Definition cptr (p : sptr) (c : part) : Z :=
  match p, c with
  | Arr a, Re => a | Arr a, Im => (a + 1)%Z
  | Int a, Re => a | Int a, Im => (a + 1)%Z
  | Spl r _, Re => r | Spl _ s, Im => s
  end.
(** component.hpp 125-133: stride. *)
Definition cstride (f : fmt) (st : Z) : Z :=
  match f with F_split => (1 * st)%Z | _ => (2 * st)%Z end.

(** ** storage_manager *)

(** manager.hpp 366-372, user.hpp 222-231, host.hpp 99-101: the members.
    [user] = None is no_user_format, [hdata] = None a null pointer. *)
Record mgr := mkmgr {
  user : option sptr; use_user : bool;
  hdata : option sptr; hsize : nat; own : bool; admitted : bool }.

(** traits.hpp 51-52, 78-79, 100-101: is_compatible. *)
Definition compatible (F : fmt) (u : option sptr) : bool :=
  match F, u with
  | F_split, Some (Spl _ _) => true
  | F_split, _ => false
  | _, Some (Arr _) | _, Some (Int _) => true
  | _, _ => false
  end.
(** user.hpp 80-85, 186-220: as<F>(). *)
Definition cast (F : fmt) (u : sptr) : option sptr :=
  match F, u with
  | F_array, Arr a | F_array, Int a => Some (Arr a)
  | F_interleaved, Arr a | F_interleaved, Int a => Some (Int a)
  | F_split, Spl r s => Some (Spl r s)
  | _, _ => None
  end.

(** manager.hpp 46-63 with allocate = false (block.hpp 75-81). *)
Definition make_plain (n : nat) : mgr := mkmgr None false None n true true.
(** manager.hpp 65-142; [fresh]: what the allocator returns. *)
Definition make_user (F : fmt) (n : nat) (u : option sptr) (fresh : sptr) : option mgr :=
  if compatible F u then
    match u with
    | Some p => q <- cast F p ;; Some (mkmgr u true (Some q) n false false)
    | None => None
    end
  else Some (mkmgr u false (Some fresh) n true false).
(** manager.hpp 150-188, host.hpp 74-97 / 162-186 / 247-271. *)
Definition rebind (F : fmt) (s : mgr) (p : sptr) (n : nat) (fresh : sptr) : option mgr :=
  assert (negb (admitted s)) ;;
  if compatible F (Some p) then
    q <- cast F p ;; Some (mkmgr (Some p) true (Some q) n false (admitted s))
  else if own s && (hsize s =? n) then
    Some (mkmgr (Some p) false (hdata s) (hsize s) (own s) (admitted s))
  else Some (mkmgr (Some p) false (Some fresh) n true (admitted s)).

(** The copying loops of admit and release. *)
Definition copy_step (d s : option sptr) (i : nat) (m : mem V) : option (mem V) :=
  sp <- s ;; dp <- d ;; v <- sget m sp i ;; sput m dp i v.
(** manager.hpp 207-213. *)
Definition admit (m : mem V) (s : mgr) (update : bool) : option (mem V * mgr) :=
  m' <- (if negb (admitted s) && negb (use_user s) && update
         then loop (copy_step (hdata s) (user s)) 0 (hsize s) m else Some m) ;;
  Some (m', mkmgr (user s) (use_user s) (hdata s) (hsize s) (own s) true).
(** manager.hpp 214-221. *)
Definition release (m : mem V) (s : mgr) (update : bool) : option (mem V * mgr) :=
  if negb (admitted s) then Some (m, s) else
  m' <- (if negb (use_user s) && update
         then loop (copy_step (user s) (hdata s)) 0 (hsize s) m else Some m) ;;
  Some (m', mkmgr (user s) (use_user s) (hdata s) (hsize s) (own s) false).
(** manager.hpp 320-350 (without OpenCL), host.hpp 61-68: sync(0). *)
Definition sync (s : mgr) (fresh : sptr) : mgr :=
  match hdata s with
  | None => if own s then mkmgr (user s) (use_user s) (Some fresh) (hsize s) (own s) (admitted s) else s
  | Some _ => s
  end.
(** block.hpp 232-275, manager.hpp 288-299: get and put at a storage index. *)
Definition mget (m : mem V) (s : mgr) (i : nat) : option cplx :=
  assert (i <? hsize s) ;; p <- hdata s ;; sget m p i.
Definition mput (m : mem V) (s : mgr) (i : nat) (v : cplx) : option (mem V) :=
  assert (i <? hsize s) ;; p <- hdata s ;; sput m p i v.

(** * Specification *)

(** The two cells of element [i]. *)
Definition cells (p : sptr) (i : nat) : list Z :=
  match p with
  | Arr a | Int a => [a +' (2 * i); a +' (2 * i + 1)]
  | Spl r s => [r +' i; s +' i]
  end.
Definition all_cells (p : sptr) (n : nat) : list Z := flat_map (cells p) (seq 0 n).
(** An array of [n] elements: mapped, no cell used twice. *)
Definition is_array (m : mem V) (p : sptr) (n : nat) : Prop :=
  NoDup (all_cells p n) /\ forall a, In a (all_cells p n) -> m a <> None.
Definition apart (p q : sptr) (n : nat) : Prop := forall a, In a (all_cells p n) -> ~ In a (all_cells q n).

(** What a program does with a block bound to user storage.  The user may
    access any of their own memory, through pointers of any format. *)
Inductive op :=
| UWrite (p : sptr) (i : nat) (v : cplx)
| URead (p : sptr) (i : nat)
| Put (i : nat) (v : cplx)
| Get (i : nat)
| Admit (update : bool)
| Release (update : bool)
| Rebind (p : sptr) (n : nat) (fresh : sptr).

(** The code's behaviour, with the values read. *)
Definition exec (F : fmt) (m : mem V) (s : mgr) (o : op) : option (mem V * mgr * option cplx) :=
  match o with
  | UWrite p i v => m' <- sput m p i v ;; Some (m', s, None)
  | URead p i => v <- sget m p i ;; Some (m, s, Some v)
  | Put i v => m' <- mput m s i v ;; Some (m', s, None)
  | Get i => v <- mget m s i ;; Some (m, s, Some v)
  | Admit b => r <- admit m s b ;; Some (fst r, snd r, None)
  | Release b => r <- release m s b ;; Some (fst r, snd r, None)
  | Rebind p n fresh => s' <- rebind F s p n fresh ;; Some (m, s', None)
  end.
Fixpoint run (F : fmt) (m : mem V) (s : mgr) (l : list op) : option (mem V * mgr * list (option cplx)) :=
  match l with
  | [] => Some (m, s, [])
  | o :: l' => r <- exec F m s o ;; let '(m1, s1, x) := r in
               r' <- run F m1 s1 l' ;; let '(m2, s2, xs) := r' in Some (m2, s2, x :: xs)
  end.

(** The rules of admit and release.  [ablock]: the block's values, while
    admitted.  [amem]: the values in the user's memory.  None = the rules
    do not say. *)
Record astate := mka { an : nat; aadm : bool; aptr : sptr; ablock : nat -> option cplx; amem : mem V }.
Definition unknown : nat -> option cplx := fun _ => None.
Definition upd (f : nat -> option cplx) i v : nat -> option cplx := fun j => if j =? i then Some v else f j.
(** Reading and writing element [i] of a user array. *)
Definition aread (f : mem V) (p : sptr) (i : nat) : option cplx :=
  match cells p i with [a; b] => x <- f a ;; y <- f b ;; Some (x, y) | _ => None end.
Definition awrite (f : mem V) (p : sptr) (i : nat) (v : option cplx) : mem V :=
  match cells p i with
  | [a; b] => fun c => if Z.eqb c a then option_map fst v else if Z.eqb c b then option_map snd v else f c
  | _ => f
  end.
Definition awrite_all (f : mem V) (p : sptr) (n : nat) (vs : nat -> option cplx) : mem V :=
  fold_left (fun g i => awrite g p i (vs i)) (seq 0 n) f.
(** Does the access touch the array the block is bound to? *)
Definition touches (a : astate) (p : sptr) (i : nat) : bool :=
  existsb (fun c => existsb (Z.eqb c) (all_cells (aptr a) (an a))) (cells p i).
Definition spec (a : astate) (o : op) : option (astate * option cplx) :=
  match o with
  | UWrite p i v => assert (negb (aadm a && touches a p i)) ;;
                    Some (mka (an a) (aadm a) (aptr a) (ablock a) (awrite (amem a) p i (Some v)), None)
  | URead p i => assert (negb (aadm a && touches a p i)) ;; Some (a, aread (amem a) p i)
  | Put i v => assert (aadm a && (i <? an a)) ;; Some (mka (an a) true (aptr a) (upd (ablock a) i v) (amem a), None)
  | Get i => assert (aadm a && (i <? an a)) ;; Some (a, ablock a i)
  | Admit b => Some (if aadm a then a
                     else mka (an a) true (aptr a) (if b then aread (amem a) (aptr a) else unknown)
                              (awrite_all (amem a) (aptr a) (an a) unknown), None)
  | Release b => Some (if aadm a
                       then mka (an a) false (aptr a) unknown
                                (awrite_all (amem a) (aptr a) (an a) (if b then ablock a else unknown))
                       else a, None)
  | Rebind p n _ => assert (negb (aadm a)) ;; Some (mka n false p unknown (amem a), None)
  end.
Fixpoint spec_run (a : astate) (l : list op) : option (astate * list (option cplx)) :=
  match l with
  | [] => Some (a, [])
  | o :: l' => r <- spec a o ;; r' <- spec_run (fst r) l' ;; Some (fst r', snd r :: snd r')
  end.

(** What the environment guarantees.  [own]: the arrays the allocator hands
    out during the history; no user memory lies in them. *)
Definition user_cell (own : list (sptr * nat)) (c : Z) : Prop := forall h k, In (h, k) own -> ~ In c (all_cells h k).
Definition own_ok (F : fmt) (m : mem V) (own : list (sptr * nat)) : Prop :=
  forall h n, In (h, n) own -> fmt_of h = F /\ is_array m h n.
Definition user_array (m : mem V) (own : list (sptr * nat)) (p : sptr) (n : nat) : Prop :=
  is_array m p n /\ forall c, In c (all_cells p n) -> user_cell own c.
Definition op_ok (m : mem V) (own : list (sptr * nat)) (o : op) : Prop :=
  match o with
  | UWrite p i _ | URead p i => NoDup (cells p i) /\ forall c, In c (cells p i) -> m c <> None /\ user_cell own c
  | Rebind p n fresh => user_array m own p n /\ In (fresh, n) own
  | _ => True
  end.
(** The cells a history may write. *)
Fixpoint footprint (l : list op) : list Z :=
  match l with
  | [] => []
  | UWrite p i _ :: l' => cells p i ++ footprint l'
  | Rebind p n _ :: l' => all_cells p n ++ footprint l'
  | _ :: l' => footprint l'
  end.
End S.
Arguments mgr : clear implicits.
