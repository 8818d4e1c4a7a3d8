(** Model of the life of solver objects: construction, copying, repeated
    decomposition, use and destruction of lud, chold and qrd objects
    (src/ovxx/lapack/{lu,cholesky,qr}.hpp, reached through
    src/vsip/impl/solver/{lu,cholesky,qr}.hpp, whose implicit copy constructors
    copy the backend).  What the operations compute is in [Solver].
    Each object owns a block for the factored matrix (data_) and a second array
    (ipiv_, tau_; an empty one stands for the missing array of chold); the
    workspace of qrd carries nothing between calls. *)
From Coq Require Import ZArith List Lia Bool Arith.
From Verif Require Import Base Freqswap Conv Matvec Solver.
Import ListNotations.
Local Open Scope nat_scope.

Section SolverObj.
Context {K : CRing} (conj : K -> K) (kdiv : K -> K -> option K).
Context (geqrf : nat -> nat -> list K -> nat -> option (list K * list K)).
Context (getrf : nat -> list K -> nat -> option (list K * list nat * bool)).
Context (potrf : bool -> nat -> list K -> nat -> option (list K * bool)).

(** The members other than arrays: lu.hpp 101, cholesky.hpp 90-91,
    qr.hpp 340-342. *)
Inductive header := HLud (n : nat) | HChold (u : bool) (n : nat) | HQrd (r c : nat) (s : storage).
Inductive cell := Data (d : list K) | Piv (p : list nat) | Tau (t : list K).
(** An object: its header and where its two arrays are in the heap. *)
Record obj := Obj { hd : header; dat : nat; aux : nat }.
(** The program: its variables, the heap, the next free place in the heap, and
    the memory of the user's matrices. *)
Record state := State { vars : nat -> option obj; heap : nat -> option cell; next : nat; smem : mem K }.
Definition start (m : mem K) : state := State (fun _ => None) (fun _ => None) 0 m.
Definition upd {A} (f : nat -> A) (k : nat) (x : A) : nat -> A := fun i => if i =? k then x else f i.

Inductive value := VLud (l : @lud K) | VChold (c : @chold K) | VQrd (q : @qrd K).
(** The object as seen by the operations of [Solver]. *)
Definition load (st : state) (v : nat) : option value :=
  o <- vars st v ;; d <- heap st (dat o) ;; x <- heap st (aux o) ;;
  match hd o, d, x with
  | HLud n, Data d, Piv p => Some (VLud {| l_len := n; l_data := d; l_piv := p |})
  | HChold u n, Data d, Piv _ => Some (VChold {| c_upper := u; c_len := n; c_data := d |})
  | HQrd r c s, Data d, Tau t => Some (VQrd {| q_rows := r; q_cols := c; q_store := s; q_data := d; q_tau := t |})
  | _, _, _ => None
  end.
Definition parts (x : value) : header * cell * cell :=
  match x with
  | VLud l => (HLud (l_len l), Data (l_data l), Piv (l_piv l))
  | VChold c => (HChold (c_upper c) (c_len c), Data (c_data c), Piv [])
  | VQrd q => (HQrd (q_rows q) (q_cols q) (q_store q), Data (q_data q), Tau (q_tau q))
  end.
(** A constructor: two new arrays for a variable that does not exist yet. *)
Definition create (st : state) (v : nat) (x : value) : option state :=
  match vars st v with
  | Some _ => None
  | None =>
      let '(h, d, a) := parts x in let i := next st in
      Some (State (upd (vars st) v (Some (Obj h i (S i)))) (upd (upd (heap st) i (Some d)) (S i) (Some a)) (S (S i)) (smem st))
  end.
(** The factorization written into the arrays of the object. *)
Definition store (st : state) (v : nat) (x : value) : option state :=
  o <- vars st v ;;
  let '(_, d, a) := parts x in
  Some (State (vars st) (upd (upd (heap st) (dat o) (Some d)) (aux o) (Some a)) (next st) (smem st)).
(** for (i = 0; i != n; ++i) dst[i] = src[i]; *)
Definition first {A} (z : A) (n : nat) (l : list A) : list A := map (fun i => nth i l z) (seq 0 n).
(** The copy constructors: lu.hpp 38-47, cholesky.hpp 39-45, qr.hpp 50-65.
    data_ is a new matrix, to which the elements are assigned. *)
Definition copied (x : value) : value :=
  match x with
  | VLud l => VLud {| l_len := l_len l; l_data := first 0%cr (l_len l * l_len l) (l_data l); l_piv := first 0 (l_len l) (l_piv l) |}
  | VChold c => VChold {| c_upper := c_upper c; c_len := c_len c; c_data := first 0%cr (c_len c * c_len c) (c_data c) |}
  | VQrd q => VQrd {| q_rows := q_rows q; q_cols := q_cols q; q_store := q_store q;
                      q_data := first 0%cr (q_rows q * q_cols q) (q_data q); q_tau := first 0%cr (q_cols q) (q_tau q) |}
  end.
Definition decomposed (x : value) (a : block2) (m : mem K) : option value :=
  match x with
  | VLud l => r <- lud_decompose getrf l a m ;; Some (VLud (fst r))
  | VChold c => r <- chold_decompose potrf c a m ;; Some (VChold (fst r))
  | VQrd q => r <- qrd_decompose geqrf q a m ;; Some (VQrd r)
  end.

Inductive op :=
| NewLud (v n : nat) | NewChold (v : nat) (u : bool) (n : nat) | NewQrd (v r c : nat) (s : storage)
| Copy (v w : nat)                  (* T v(w); *)
| Assign (v w : nat)                (* v = w; *)
| Decompose (v : nat) (a : block2)
| LudSolve (v : nat) (cplx : bool) (tr : mat_op) (b x : block2)
| CholdSolve (v : nat) (b x : block2)
| QrdLsqsol (v : nat) (cplx : bool) (b x : block2)
| QrdCovsol (v : nat) (cplx : bool) (b x : block2)
| User (m : mem K)                  (* the program changes its matrices *)
| Destroy (v : nat).

Definition with_mem (st : state) (m : mem K) : state := State (vars st) (heap st) (next st) m.
Definition step (st : state) (o : op) : option state :=
  match o with
  | NewLud v n => l <- lud_new n ;; create st v (VLud l)
  | NewChold v u n => c <- chold_new u n ;; create st v (VChold c)
  | NewQrd v r c s => q <- qrd_new r c s ;; create st v (VQrd q)
  | Copy v w => x <- load st w ;; create st v (copied x)
  (* lu.hpp 48-55 assigns an aligned_array const, which does not compile;
     cholesky.hpp 46-53 and qr.hpp 67-78 copy the members and then end
     without a return statement: undefined *)
  | Assign v w => None
  | Decompose v a => x <- load st v ;; y <- decomposed x a (smem st) ;; store st v y
  | LudSolve v cplx tr b x =>
      y <- load st v ;; match y with VLud l => m <- lud_solve conj kdiv cplx tr l b x (smem st) ;; Some (with_mem st m) | _ => None end
  | CholdSolve v b x =>
      y <- load st v ;; match y with VChold c => m <- chold_solve conj kdiv c b x (smem st) ;; Some (with_mem st m) | _ => None end
  | QrdLsqsol v cplx b x =>
      y <- load st v ;; match y with VQrd q => m <- qrd_lsqsol conj kdiv cplx q b x (smem st) ;; Some (with_mem st m) | _ => None end
  | QrdCovsol v cplx b x =>
      y <- load st v ;; match y with VQrd q => m <- qrd_covsol conj kdiv cplx q b x (smem st) ;; Some (with_mem st m) | _ => None end
  | User m => Some (with_mem st m)
  (* the implicit destructors free both arrays *)
  | Destroy v =>
      o <- vars st v ;; _ <- heap st (dat o) ;; _ <- heap st (aux o) ;;
      Some (State (upd (vars st) v None) (upd (upd (heap st) (dat o) None) (aux o) None) (next st) (smem st))
  end.

(** ** Specification *)
Inductive reachable : state -> Prop :=
| reach_start m : reachable (start m)
| reach_step st st' o : reachable st -> step st o = Some st' -> reachable st'.
(** The variable whose value a statement sets or ends. *)
Definition target (o : op) : option nat :=
  match o with
  | NewLud v _ | NewChold v _ _ | NewQrd v _ _ _ | Copy v _ | Assign v _ | Decompose v _ | Destroy v => Some v
  | _ => None
  end.
Inductive class := Lud | Chold (u : bool) | Qrd.
Definition class_of (o : obj) : class := match hd o with HLud _ => Lud | HChold u _ => Chold u | HQrd _ _ _ => Qrd end.
(** [given st v c M N A]: the last M by N matrix given to the object [v], of
    class [c], was A: A was decomposed into it, or it is a copy of an object
    that had been given A when it was copied; and nothing was done to [v]
    since. *)
Inductive given : state -> nat -> class -> nat -> nat -> (nat -> nat -> K) -> Prop :=
| given_decompose st st' v o a A : reachable st -> vars st v = Some o -> holds2 (smem st) a A ->
    step st (Decompose v a) = Some st' -> given st' v (class_of o) (rows a) (cols a) A
| given_copy st st' v w c M N A : given st w c M N A -> step st (Copy v w) = Some st' -> given st' v c M N A
| given_keep st st' v o c M N A : given st v c M N A -> step st o = Some st' -> target o <> Some v -> given st' v c M N A.
End SolverObj.
