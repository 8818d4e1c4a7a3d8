(** Model of the life of Histogram objects and of the vectors they return
    (src/vsip/impl/signal/histo.hpp 98-169, src/vsip/impl/vector.hpp).  What a
    call counts is in [Histo].  Samples are exact reals.  A variable is a
    number, given out in the order of construction; it stands for a Histogram
    or for a vector returned by a call. *)
From Coq Require Import ZArith QArith List Lia Bool Arith.
From Verif Require Import Base Histo FiltObj.
Import ListNotations.
Local Open Scope nat_scope.

Inductive hop :=
| HNew (mn mx : Q) (num : nat)                    (* Histogram<const_Vector, T> v(mn, mx, num); *)
| HCopy (w : nat)                                 (* Histogram<const_Vector, T> v(w); *)
| HAssign (v w : nat)                             (* v = w; *)
| HCall (v : nat) (acc : bool) (x : samples reals) (* const_Vector<scalar_i> r = v(x, acc); *)
| RCopy (r : nat)                                 (* const_Vector<scalar_i> s(r); *)
| Read (r : nat)                                  (* the elements of r *)
| HEnd (v : nat).                                 (* the end of a variable of either kind *)

(** The members min_ and max_, and the block that the member hist_ refers to
    (histo.hpp 166-169); a returned vector is a view of a block. *)
Inductive handle := Obj (mn mx : Q) (b : nat) | Res (b : nat).
Definition blk (h : handle) : nat := match h with Obj _ _ b => b | Res b => b end.
(** Blocks have a reference count. *)
Record hstate := HState { hvars : list (option handle); cells : list (option (nat * list Z)) }.
Definition hstart : hstate := HState [] [].

(** A second view of a block (vector.hpp 59, 173: both take the block of the
    original), in a new variable. *)
Definition view_of (st : hstate) (h : handle) : option hstate :=
  x <- at_ (cells st) (blk h) ;;
  Some (HState (hvars st ++ [Some h]) (lset (cells st) (blk h) (Some (fst x + 1, snd x)))).
(** The elements of a block are overwritten. *)
Definition fill (st : hstate) (b : nat) (l : list Z) : option hstate :=
  x <- at_ (cells st) b ;; Some (HState (hvars st) (lset (cells st) b (Some (fst x, l)))).

Definition hstep (st : hstate) (o : hop) : option (hstate * list (list Z)) :=
  match o with
  (* histo.hpp 107-115 *)
  | HNew mn mx num =>
      h <- make_histogram reals mn mx num ;;
      Some (HState (hvars st ++ [Some (Obj mn mx (length (cells st)))]) (cells st ++ [Some (1, hist_ h)]), [])
  (* the implicit copy constructor: hist_ is copied as a view *)
  | HCopy w =>
      h <- at_ (hvars st) w ;;
      match h with Obj _ _ _ => st' <- view_of st h ;; Some (st', []) | Res _ => None end
  (* the implicit assignment: hist_ is assigned element by element
     (vector.hpp 198-203) *)
  | HAssign v w =>
      h <- at_ (hvars st) v ;; g <- at_ (hvars st) w ;;
      match h, g with
      | Obj _ _ b, Obj mn mx c =>
          x <- at_ (cells st) b ;; y <- at_ (cells st) c ;;
          assert (length (snd x) =? length (snd y)) ;;
          st' <- fill st b (snd y) ;;
          Some (HState (lset (hvars st') v (Some (Obj mn mx b))) (cells st'), [])
      | _, _ => None
      end
  (* histo.hpp 137-164; the result is made from hist_ as a view *)
  | HCall v acc x =>
      h <- at_ (hvars st) v ;;
      match h with
      | Obj mn mx b =>
          y <- at_ (cells st) b ;;
          r <- call reals {| min_ := mn : reals; max_ := mx; hist_ := snd y |} acc x ;;
          st' <- fill st b (hist_ r) ;; st'' <- view_of st' (Res b) ;; Some (st'', [])
      | Res _ => None
      end
  | RCopy r =>
      h <- at_ (hvars st) r ;;
      match h with Res _ => st' <- view_of st h ;; Some (st', []) | Obj _ _ _ => None end
  | Read r =>
      h <- at_ (hvars st) r ;;
      match h with Res b => x <- at_ (cells st) b ;; Some (st, [snd x]) | Obj _ _ _ => None end
  (* the view ends; its block with the last view *)
  | HEnd v =>
      h <- at_ (hvars st) v ;; x <- at_ (cells st) (blk h) ;;
      Some (HState (lset (hvars st) v None) (lset (cells st) (blk h) (if fst x =? 1 then None else Some (fst x - 1, snd x))), [])
  end.

(** * Specification *)

(** What the variables of a program without copies of histograms stand for: a
    histogram for its range, its number of bins and the samples since its last
    call that did not accumulate; a result for the counts at the time of the
    call, where [from] is the histogram that was called, as long as it exists,
    and [again] tells whether that histogram has been called or assigned to
    since. *)
Inductive thing :=
| Hist (mn mx : Q) (num : nat) (l : list Q)
| Counts (c : list Z) (from : option nat) (again : bool).
Definition counts (mn mx : Q) (num : nat) (l : list Q) : list Z := map (fun n => count mn mx num n l) (seq 0 num).
Definition is_from (v : nat) (f : option nat) : bool := match f with Some u => u =? v | None => false end.
(** Histogram [v] was called or assigned to; [v] is gone. *)
Definition mark (v : nat) (t : thing) : thing :=
  match t with Counts c f a => Counts c f (a || is_from v f) | _ => t end.
Definition orphan (v : nat) (t : thing) : thing :=
  match t with Counts c f a => Counts c (if is_from v f then None else f) a | _ => t end.
Definition rows_ok (x : samples reals) : bool :=
  match x with vec _ => true | mat r c => forallb (fun w => length w =? c) r end.

(** One step; what a read must give, [None] if nothing is required. *)
Definition ideal (s : list (option thing)) (o : hop) : option (list (option thing) * list (option (list Z))) :=
  match o with
  | HNew mn mx num => assert Qlt_bool mn mx ;; assert (3 <=? num) ;; Some (s ++ [Some (Hist mn mx num [])], [])
  | HCopy _ => None
  | HAssign v w =>
      t <- at_ s v ;; u <- at_ s w ;;
      match t, u with
      | Hist _ _ n _, Hist mn mx m l =>
          assert (n =? m) ;; Some (lset (map (option_map (mark v)) s) v (Some (Hist mn mx m l)), [])
      | _, _ => None
      end
  | HCall v acc x =>
      t <- at_ s v ;;
      match t with
      | Hist mn mx n l =>
          let l' := (if acc then l else []) ++ all_samples reals x in
          assert (rows_ok x) ;; assert (Z.of_nat (length l) + Z.of_nat (length (all_samples reals x)) <? 2 ^ 31)%Z ;;
          Some (lset (map (option_map (mark v)) s) v (Some (Hist mn mx n l')) ++ [Some (Counts (counts mn mx n l') (Some v) false)], [])
      | _ => None
      end
  | RCopy r => t <- at_ s r ;; match t with Counts _ _ _ => Some (s ++ [Some t], []) | _ => None end
  | Read r => t <- at_ s r ;; match t with Counts c _ a => Some (s, [if a then None else Some c]) | _ => None end
  | HEnd v => t <- at_ s v ;; Some (lset (map (option_map (orphan v)) s) v None, [])
  end.
(** An answer that meets the requirement. *)
Definition answers (q : option (list Z)) (r : list Z) : Prop := match q with Some c => r = c | None => True end.
