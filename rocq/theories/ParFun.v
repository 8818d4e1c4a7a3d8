(** * Functions with settings in distributed expressions

    Model of what becomes of the operation of an elementwise expression when
    the expression is assigned to a distributed view (src/ovxx/expr/unary.hpp,
    expr/transform.hpp, parallel/expr.hpp, parallel/assign.hpp), for the
    functions of src/vsip/selgen.hpp whose operations hold data: clip and
    invclip.  The distribution, the messages and the execution are those of
    ParSeq.  Elements are integers.  User functions with data
    (vsip/impl/fns_userelt.hpp 26-36) have no default constructor: their use
    with distributed views does not compile and is not modelled. *)
From Coq Require Import List Arith ZArith Lia Bool.
From Verif Require Import Base Dist Domain Traversal Map ParAssign ParSeq Selgen.
Import ListNotations.
Local Open Scope nat_scope.

(** Expressions in distributed blocks: those of ParSeq with clip and invclip
    (selgen.hpp 218-254), which store their settings in the operation of the
    Unary block (block_type(functor, v.block()), unary.hpp 53-54). *)
Inductive fexpr :=
| FVar (v : nat)
| FScal (x : Z)
| FGen (f : list nat -> Z)
| FUn (f : Z -> Z) (a : fexpr)
| FBin (f : Z -> Z -> Z) (a b : fexpr)
| FTern (f : Z -> Z -> Z -> Z) (a b c : fexpr)
| FClip (lower upper lval uval : Z) (a : fexpr)
| FInvclip (lower middle upper lval uval : Z) (a : fexpr).
Record fstmt := { f_lhs : nat; f_rhs : fexpr; f_temps : list nat }.

(** The expression one processor evaluates.  With equal maps it is
    get_local_block of the right-hand side (unary.hpp 194-203); otherwise the
    tree is first rebuilt with reorganized leaves (transform.hpp 239-249,
    parallel/expr.hpp 363-370) and get_local_block applied to that tree
    (expr.hpp 322-323).  Both build a unary node with the constructor that
    takes the argument only (unary.hpp 52): the members of the operation are
    whatever the memory contains, [J path k] for member k of the node at
    [path].  Operations without data are unchanged. *)
Fixpoint rebuilt (J : list nat -> nat -> Z) (path : list nat) (e : fexpr) : pexpr Z :=
  match e with
  | FVar v => PVar v
  | FScal x => PScal x
  | FGen f => PGen f
  | FUn f a => PUn f (rebuilt J (0 :: path) a)
  | FBin f a b => PBin f (rebuilt J (0 :: path) a) (rebuilt J (1 :: path) b)
  | FTern f a b c => PTern f (rebuilt J (0 :: path) a) (rebuilt J (1 :: path) b) (rebuilt J (2 :: path) c)
  | FClip _ _ _ _ a =>
      PUn (clip_functor (J path 0) (J path 1) (J path 2) (J path 3)) (rebuilt J (0 :: path) a)
  | FInvclip _ _ _ _ _ a =>
      PUn (invclip_functor (J path 0) (J path 1) (J path 2) (J path 3) (J path 4)) (rebuilt J (0 :: path) a)
  end.
Definition rebuilt_stmt (J : list nat -> nat -> Z) (s : fstmt) : stmt Z :=
  {| s_lhs := f_lhs s; s_rhs := rebuilt J [] (f_rhs s); s_temps := f_temps s |}.

(** The program of processor [r]; [J r k]: its memory at statement k. *)
Fixpoint rebuilt_all (J : nat -> list nat -> nat -> Z) (k : nat) (ss : list fstmt) : list (stmt Z) :=
  match ss with
  | [] => []
  | s :: ss' => rebuilt_stmt (J k) s :: rebuilt_all J (S k) ss'
  end.
Definition fspmd (D : nat -> var) (O : nat -> list nat) (buf : nat)
    (J : nat -> nat -> list nat -> nat -> Z) (ss : list fstmt) (r : nat) : option (list (gact Z)) :=
  spmd D O buf (rebuilt_all (J r) 0 ss) r.

(** * Specification *)

(** The value of an expression at a global index.  clip: the lower value up to
    the lower threshold, the upper value from the upper threshold on.
    invclip: the element itself below the lower and above the upper
    threshold; the lower value up to the middle, then the upper value. *)
Fixpoint value (X : nat -> list nat -> Z) (g : list nat) (e : fexpr) : Z :=
  match e with
  | FVar v => X v g
  | FScal x => x
  | FGen f => f g
  | FUn f a => f (value X g a)
  | FBin f a b => f (value X g a) (value X g b)
  | FTern f a b c => f (value X g a) (value X g b) (value X g c)
  | FClip lo up lv uv a =>
      let x := value X g a in
      if (x <=? lo)%Z then lv else if (up <=? x)%Z then uv else x
  | FInvclip lo mid up lv uv a =>
      let x := value X g a in
      if (x <? lo)%Z || (up <? x)%Z && (mid <=? x)%Z then x else if (x <? mid)%Z then lv else uv
  end.
(** The statements one after the other on global contents. *)
Fixpoint outcome (X : nat -> list nat -> Z) (ss : list fstmt) : nat -> list nat -> Z :=
  match ss with
  | [] => X
  | s :: ss' => outcome (fun v g => if v =? f_lhs s then value X g (f_rhs s) else X v g) ss'
  end.

(** No clip or invclip anywhere. *)
Fixpoint no_settings (e : fexpr) : Prop :=
  match e with
  | FVar _ | FScal _ | FGen _ => True
  | FUn _ a => no_settings a
  | FBin _ a b => no_settings a /\ no_settings b
  | FTern _ a b c => no_settings a /\ no_settings b /\ no_settings c
  | FClip _ _ _ _ _ | FInvclip _ _ _ _ _ _ => False
  end.

(** The same expression up to the settings of clip and invclip. *)
Inductive like : fexpr -> fexpr -> Prop :=
| lk_var v : like (FVar v) (FVar v)
| lk_scal x : like (FScal x) (FScal x)
| lk_gen f : like (FGen f) (FGen f)
| lk_un f a a' : like a a' -> like (FUn f a) (FUn f a')
| lk_bin f a a' b b' : like a a' -> like b b' -> like (FBin f a b) (FBin f a' b')
| lk_tern f a a' b b' c c' : like a a' -> like b b' -> like c c' -> like (FTern f a b c) (FTern f a' b' c')
| lk_clip l u v w l' u' v' w' a a' : like a a' -> like (FClip l u v w a) (FClip l' u' v' w' a')
| lk_invclip l m u v w l' m' u' v' w' a a' : like a a' ->
    like (FInvclip l m u v w a) (FInvclip l' m' u' v' w' a').
Definition like_stmt (s s' : fstmt) : Prop :=
  f_lhs s = f_lhs s' /\ f_temps s = f_temps s' /\ like (f_rhs s) (f_rhs s').

(** The requirements of C62 on programs: those that do not depend on the
    functions applied. *)
Fixpoint shape (e : fexpr) : pexpr Z :=
  match e with
  | FVar v => PVar v
  | FScal x => PScal x
  | FGen f => PGen f
  | FUn f a => PUn f (shape a)
  | FBin f a b => PBin f (shape a) (shape b)
  | FTern f a b c => PTern f (shape a) (shape b) (shape c)
  | FClip _ _ _ _ a | FInvclip _ _ _ _ _ a => PUn (fun x => x) (shape a)
  end.
Definition admissible (n : nat) (D : nat -> var) (O : nat -> list nat) (U : nat -> Prop) (I : list nat) (ss : list fstmt) : Prop :=
  prog_ok n D O U I (map (fun s => {| s_lhs := f_lhs s; s_rhs := shape (f_rhs s); s_temps := f_temps s |}) ss).
