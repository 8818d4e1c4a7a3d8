(** The part of Python 2 that the Python modules of the library are written in, and Boost.Python's
    way of finding the C++ function behind a call.

    The Python functions under /repo/python/src are programs, not C++; they are entered in
    [PyProg.v] as syntax, statement by statement, and run by the interpreter of this file.  What an
    undefined name, a wrong number of arguments or a wrong order of arguments does is therefore
    decided here, by the rules of the language, and not where the program is written down.

    Simplifications.
    - Instances of Python classes are values, not references: every modelled method assigns
      attributes of [self] in [__init__] only, so sharing cannot be seen.
    - Numbers that are not integers are tokens ([VNum]); 0 stands for zero.
    - Python ints are any integers; C++ [length_type] takes every non-negative one.
    - The message of a [raise] statement is not evaluated.
    - What a C++ function does to the contents of its arguments is not modelled here; that it is
      called, with which arguments bound to which of its parameters, is recorded as an [event].
      Whether it succeeds, what it answers and which number it returns is given by a [world], over
      which all theorems quantify. *)
From Coq Require Import Ascii String List ZArith Bool.
Import ListNotations.
Local Open Scope string_scope.
Local Open Scope Z_scope.

(** ** Values *)

(** Element types of blocks and NumPy arrays (src/ovxx/python/block.hpp:82-93, [get_typenum]; int64 is
    NumPy's default integer and has no block type). *)
Inductive dt := F32 | F64 | C64 | C128 | I32 | I64 | B8.
Definition dt_eqb (a b : dt) : bool :=
  match a, b with
  | F32, F32 | F64, F64 | C64, C64 | C128, C128 | I32, I32 | I64, I64 | B8, B8 => true
  | _, _ => false
  end.

(** Python type objects used as data types, and numpy.dtype instances. *)
Inductive tyobj := TyFloat | TyComplex | TyInt | TyBool | NpType (d : dt) | Dtype (d : dt).

Inductive val :=
| VNone
| VBool (b : bool)
| VInt (z : Z)
| VNum (t : Z)                                  (* a float *)
| VCplx (t : Z)                                 (* a complex number *)
| VStr (s : string)
| VSlice (t : Z)
| VEnum (ty : string) (z : Z)                   (* a value of an enumeration exported with bpl::enum_ *)
| VEnumT (ty : string)
| VType (t : tyobj)
| VTuple (l : list val)
| VDict (l : list (string * val))
| VBlock (id : Z) (d : dt) (shape : list Z)     (* a Block<D, T> *)
| VArray (id : Z) (d : dt) (shape : list Z)     (* a NumPy array *)
| VObj (cls : string) (d : dt) (id : Z)         (* an instance of a class exported from C++ *)
| VInst (m c : string) (fields : list (string * val))
| VClass (m c : string)
| VFun (m f : string)
| VMeth (m c f : string) (self : val)
| VMod (m : string)
| VNative (m f : string)
| VNMeth (f : string) (self : val)
| VPrim (p : string).

(** ** Syntax *)
Inductive expr :=
| EName (x : string)
| EVal (v : val)
| EAttr (e : expr) (a : string)
| ECall (f : expr) (args : list expr) (kw : list (string * expr))
| ETuple (es : list expr)
| EIdx (e i : expr)
| EEq (a b : expr)
| EIn (a b : expr)
| EAnd (a b : expr)
| EOr (a b : expr)
| ENot (a : expr)
| EAdd (a b : expr)
| ESub (a b : expr).

Inductive stmt :=
| SAssign (x : string) (e : expr)
| SAttr (x a : string) (e : expr)               (* x.a = e *)
| SExpr (e : expr)
| SIf (e : expr) (yes no : list stmt)
| SReturn (e : expr)
| SRaise (exc : string)
| SPass.

Record fn := { f_params : list (string * option val); f_star : option string; f_kw : option string; f_body : list stmt }.
Inductive gdef :=
| GVal (v : val)
| GFun (f : fn)
| GProp (f : fn)
| GClass (members : list (string * gdef)).
Definition program := list (string * list (string * gdef)).

Coercion EName : string >-> expr.
Notation "e #. a" := (EAttr e a) (at level 40, left associativity, a at level 0).
Notation "f @( x , .. , y )" := (ECall f (cons x .. (cons y nil) ..) nil) (at level 40, left associativity).
Notation "f @()" := (ECall f nil nil) (at level 40, left associativity).

Fixpoint assoc {A} (x : string) (l : list (string * A)) : option A :=
  match l with
  | [] => None
  | (k, v) :: r => if String.eqb k x then Some v else assoc x r
  end.
Fixpoint set {A} (x : string) (v : A) (l : list (string * A)) : list (string * A) :=
  match l with
  | [] => [(x, v)]
  | (k, w) :: r => if String.eqb k x then (k, v) :: r else (k, w) :: set x v r
  end.
Definition mem (x : string) (l : list string) : bool := existsb (String.eqb x) l.

(** ** Calls of C++ functions *)

(** The types of C++ parameters for which calls are resolved: [length_type]/[index_type], [unsigned],
    [int], [float]/[double], [complex<>], [bool], [Block<D,T>], an enumeration, a wrapped class, a NumPy
    array, [bpl::slice]. *)
Inductive nty := NLen | NU32 | NI32 | NReal | NCplx | NBool | NBlk (D : nat) (d : dt) | NEnum (ty : string)
               | NObj (cls : string) (d : dt) | NArr (d : dt) | NSlice.

(** What a C++ function returns to Python. *)
Inductive rkind := RNone | RBool | RNum | RCplx | RBlock (d : dt) (shape : list Z) | RObj (cls : string) (d : dt)
                 | RNumInt (* a number with an index *).

Record overload := { c_name : string; c_params : list (string * nty); c_result : list val -> rkind }.

Record event := { ev_fun : string; ev_args : list (string * val) }.

(** The world: for every call, [None] if the C++ function throws, otherwise its answer if it returns
    [bool]; the number it returns if it returns a number, and the index if it returns one. *)
Record world := { w_ok : event -> option bool; w_num : event -> Z; w_index : event -> Z }.

(** Enumerations for which a converter exists: /repo/python/src/signal/types.cpp:15-37,
    /repo/python/src/math/types.cpp:15-31 (all uses of bpl::enum_ in the bindings). *)
Definition enums : list (string * list (string * Z)) :=
  [("alg_hint", [("time", 0); ("space", 1); ("noise", 2)]);
   ("support_region", [("full", 0); ("same", 1); ("min", 2); ("min_zeropad", 3)]);
   ("symmetry", [("none", 0); ("even_len_odd", 1); ("even_len_even", 2)]);
   ("bias", [("biased", 0); ("unbiased", 1)]);
   ("obj_state", [("no_save", 0); ("save", 1)]);
   ("mat_op", [("ntrans", 0); ("trans", 1); ("herm", 2); ("conj", 3)]);
   ("product_side", [("lside", 0); ("rside", 1)]);
   ("storage", [("qrd_nosaveq", 0); ("qrd_saveq1", 1); ("qrd_saveq", 2); ("svd_uvnos", 3); ("svd_uvpart", 4); ("svd_uvfull", 5)])].

(** Boost.Python's from-Python converters: integers (including bool and exported enumerations, which
    derive from int) convert to every arithmetic type; an int does not convert to an enumeration. *)
Definition is_int (v : val) : bool := match v with VInt _ | VBool _ | VEnum _ _ => true | _ => false end.
Definition int_of (v : val) : Z := match v with VInt z | VEnum _ z => z | VBool true => 1 | _ => 0 end.
Definition convertible (t : nty) (v : val) : bool :=
  match t with
  | NLen | NU32 | NI32 => is_int v
  | NReal => is_int v || match v with VNum _ => true | _ => false end
  | NCplx => is_int v || match v with VNum _ | VCplx _ => true | _ => false end
  | NBool => is_int v || match v with VNone => true | _ => false end
  | NBlk D d => match v with VBlock _ d' sh => dt_eqb d d' && Nat.eqb D (List.length sh) | _ => false end
  | NEnum ty => match v with
                | VEnum ty' _ => String.eqb ty ty' && match assoc ty enums with Some _ => true | None => false end
                | _ => false
                end
  | NObj c d => match v with VObj c' d' _ => String.eqb c c' && dt_eqb d d' | _ => false end
  | NArr d => match v with VArray _ d' sh => dt_eqb d d' && Nat.leb (List.length sh) 2 | _ => false end
  | NSlice => match v with VSlice _ => true | _ => false end
  end.
Fixpoint all_convertible (ps : list (string * nty)) (vs : list val) : bool :=
  match ps, vs with
  | [], [] => true
  | (_, t) :: ps, v :: vs => convertible t v && all_convertible ps vs
  | _, _ => false
  end.
(** Extracting an integer that the C++ type cannot hold raises OverflowError. *)
Definition nonneg (z : Z) : bool := 0 <=? z.
Definition below_u32 (z : Z) : bool := (0 <=? z) && (z <? 4294967296).
Definition in_i32 (z : Z) : bool := (-2147483648 <=? z) && (z <? 2147483648).
Definition fits (t : nty) (v : val) : bool :=
  match t with
  | NLen => nonneg (int_of v)
  | NU32 => below_u32 (int_of v)
  | NI32 => in_i32 (int_of v)
  | _ => true
  end.
(** The state of the interpreter: extension modules imported so far, the identity the next new object
    gets, and the calls of C++ functions made so far, newest first. *)
Record state := { loaded : string -> bool; next : Z; events : list event }.

(** A run: a value, an exception, something not modelled, or a run that depends on what a C++ function
    does (it throws, answers no, answers yes or returns without an answer), or on a property of the
    arguments.  [bind] continues a run. *)
Inductive check := Fits (t : nty) (v : val) | Have (b : bool).
Definition holds (c : check) : bool := match c with Fits t v => fits t v | Have b => b end.
Inductive res (A : Type) :=
| Ok (a : A) (s : state)
| Exc (e : string) (s : state)
| Out
| Ask (e : event) (throws no yes : res A)
| Test (c : check) (yes no : res A).
Arguments Ok {A}. Arguments Exc {A}. Arguments Out {A}. Arguments Ask {A}. Arguments Test {A}.
Fixpoint bind {A B} (r : res A) (k : A -> state -> res B) : res B :=
  match r with
  | Ok a s => k a s
  | Exc e s => Exc e s
  | Out => Out
  | Ask e t n y => Ask e (bind t k) (bind n k) (bind y k)
  | Test c y n => Test c (bind y k) (bind n k)
  end.

Definition load (m : string) (s : state) : state :=
  {| loaded := fun x => if String.eqb x m then true else loaded s x; next := next s; events := events s |}.
Definition record (e : event) (s : state) : state := {| loaded := loaded s; next := next s; events := e :: events s |}.
Definition bump (s : state) : state := {| loaded := loaded s; next := next s + 1; events := events s |}.

(** Suffix of an element type (/repo/python/src/_import.py:11-19; int64 has none). *)
Definition suffix (d : dt) : string :=
  match d with F32 => "_f" | F64 => "_d" | C64 => "_cf" | C128 => "_cd" | I32 => "_i" | B8 => "_b" | I64 => "_?" end.

(** The result of a call goes back to Python: a block needs the class exported by the module of its
    element type (define_block, /repo/python/src/block_api.hpp:406-456), otherwise there is no
    converter and TypeError is raised. *)
Definition produce (W : world) (e : event) (ok : bool) (k : rkind) (s : state) : res val :=
  match k with
  | RNone => Ok VNone s
  | RBool => Ok (VBool ok) s
  | RNum => Ok (VNum (w_num W e)) s
  | RCplx => Ok (VCplx (w_num W e)) s
  | RNumInt => Ok (VTuple [VNum (w_num W e); VInt (w_index W e)]) s
  | RBlock d sh => Test (Have (loaded s ("vsip._block" ++ suffix d))) (Ok (VBlock (next s) d sh) (bump s)) (Exc "TypeError" s)
  | RObj c d => Ok (VObj c d (next s)) (bump s)
  end.

(** A call of a function exported from C++: the last defined overload whose parameters all accept the
    arguments is called; if there is none, ArgumentError (a TypeError) is raised. *)
Fixpoint when_all_fit (ps : list (string * nty)) (vs : list val) (s : state) (k : res val) : res val :=
  match ps, vs with
  | (_, t) :: ps, v :: vs =>
    match t with
    | NLen | NU32 | NI32 => Test (Fits t v) (when_all_fit ps vs s k) (Exc "OverflowError" s)
    | _ => when_all_fit ps vs s k
    end
  | _, _ => k
  end.
Definition native_call (W : world) (ovs : list overload) (args : list val) (s : state) : res val :=
  match find (fun o => all_convertible (c_params o) args) (rev ovs) with
  | None => Exc "ArgumentError" s
  | Some o =>
    when_all_fit (c_params o) args s
      (let e := {| ev_fun := c_name o; ev_args := combine (map fst (c_params o)) args |} in
       let s := record e s in
       Ask e (Exc "RuntimeError" s) (produce W e false (c_result o args) s) (produce W e true (c_result o args) s))
  end.

(** ** The language *)

(** numpy.dtype of a type object; equality of type objects: a dtype equals every type it describes. *)
Definition dtype_of (t : tyobj) : dt :=
  match t with TyFloat => F64 | TyComplex => C128 | TyInt => I64 | TyBool => B8 | NpType d | Dtype d => d end.
Definition ty_eqb (a b : tyobj) : bool :=
  match a, b with
  | Dtype _, _ | _, Dtype _ => dt_eqb (dtype_of a) (dtype_of b)
  | TyFloat, TyFloat | TyComplex, TyComplex | TyInt, TyInt | TyBool, TyBool => true
  | NpType x, NpType y => dt_eqb x y
  | _, _ => false
  end.
(** ==, for the values the programs compare ([None]: not modelled). *)
Definition py_eq (a b : val) : option bool :=
  match a, b with
  | VType x, VType y => Some (ty_eqb x y)
  | VStr x, VStr y => Some (String.eqb x y)
  | VNone, VNone => Some true
  | VNone, (VInt _ | VStr _ | VEnum _ _) | (VInt _ | VStr _ | VEnum _ _), VNone => Some false
  | (VInt _ | VBool _ | VEnum _ _), (VInt _ | VBool _ | VEnum _ _) => Some (int_of a =? int_of b)
  | _, _ => None
  end.
Fixpoint any_eq (v : val) (l : list val) : option bool :=
  match l with
  | [] => Some false
  | w :: r => match py_eq v w with Some true => Some true | Some false => any_eq v r | None => None end
  end.
Definition truth (v : val) : bool :=
  match v with
  | VNone => false
  | VBool b => b
  | VInt z | VNum z | VCplx z | VEnum _ z => negb (z =? 0)
  | VStr s => negb (String.eqb s "")
  | VTuple l => match l with [] => false | _ => true end
  | VDict l => match l with [] => false | _ => true end
  | _ => true (* instances of the modelled classes define neither __nonzero__ nor __len__ *)
  end.

(** The names a function assigns are local to it. *)
Fixpoint assigned1 (c : stmt) : list string :=
  match c with
  | SAssign x _ => [x]
  | SIf _ y n => (flat_map assigned1 y ++ flat_map assigned1 n)%list
  | _ => []
  end.
Definition assigned (b : list stmt) : list string := flat_map assigned1 b.

Definition env := list (string * val).

(** Binding of arguments to parameters: positions first, then keywords, then defaults. *)
Fixpoint bind_params (ps : list (string * option val)) (args : list val) (kw : env) : option (env * list val * env) :=
  match ps with
  | [] => Some ([], args, kw)
  | (p, d) :: ps =>
    match args with
    | a :: args => match bind_params ps args kw with Some (e, r, k) => Some ((p, a) :: e, r, k) | None => None end
    | [] =>
      match assoc p kw with
      | Some a => match bind_params ps [] (filter (fun x => negb (String.eqb (fst x) p)) kw) with
                  | Some (e, r, k) => Some ((p, a) :: e, r, k) | None => None end
      | None => match d with
                | Some a => match bind_params ps [] kw with Some (e, r, k) => Some ((p, a) :: e, r, k) | None => None end
                | None => None
                end
      end
    end
  end.
Definition bind_args (f : fn) (args : list val) (kw : env) : option env :=
  match bind_params (f_params f) args kw with
  | None => None
  | Some (e, rest, kws) =>
    match f_star f, rest, f_kw f, kws with
    | None, _ :: _, _, _ => None
    | _, _, None, _ :: _ => None
    | st, _, k, _ => Some (e ++ match st with Some x => [(x, VTuple rest)] | None => [] end
                             ++ match k with Some x => [(x, VDict kws)] | None => [] end)%list
    end
  end.

(** import_module of /repo/python/src/_import.py:20-33: the suffix is looked up by type; a dtype is first
    replaced by its scalar type, which for booleans is numpy.bool_ and not bool; then the extension
    module is imported with __import__(package, ..., [mod]), which does not complain if there is no such
    submodule, and fetched with getattr, which does. *)
Definition suffix_of (t : tyobj) : option string :=
  match t with
  | TyFloat => Some "_d" | TyComplex => Some "_cd" | TyInt => Some "_i" | TyBool => Some "_b"
  | NpType d | Dtype d =>
    match d with F32 => Some "_f" | F64 => Some "_d" | C128 => Some "_cd" | C64 => Some "_cf" | I32 => Some "_i" | _ => None end
  end.

(** name.rsplit('.', 1) (line 23 there): the text before and after the last dot. *)
Fixpoint rsplit (x : string) : string * string :=
  match x with
  | EmptyString => ("", "")
  | String c r =>
    if mem "." (map (fun k => substring k 1 r) (seq 0 (String.length r)))
    then let '(a, b) := rsplit r in (String c a, b)
    else if Ascii.eqb c "."%char then ("", r) else (String c "", "")
  end.

Section Interp.
Variable W : world.
Variable P : program.
(* Functions exported by extension modules, and methods and properties of the classes they export. *)
Variable ext : string -> option (list (string * list overload)).
Variable methods : string -> dt -> option (list (string * list overload) * list string).

Definition import_ext (pkg m : string) (s : state) : state :=
  match ext (pkg ++ "." ++ m) with Some _ => load (pkg ++ "." ++ m) s | None => s end.
Definition mod_attr (m a : string) (s : state) : res val :=
  match assoc m P with
  | Some defs =>
    match assoc a defs with
    | Some (GVal v) => Ok v s
    | Some (GFun _) => Ok (VFun m a) s
    | Some (GClass _) => Ok (VClass m a) s
    | _ => Exc "AttributeError" s
    end
  | None =>
    match ext m with
    | Some defs => match assoc a defs with Some _ => Ok (VNative m a) s | None => Exc "AttributeError" s end
    | None => match ext (m ++ "." ++ a) with
              | Some _ => if loaded s (m ++ "." ++ a) then Ok (VMod (m ++ "." ++ a)) s else Exc "AttributeError" s
              | None => Exc "AttributeError" s
              end
    end
  end.
Definition import_module (pkg name : string) (t : tyobj) (s : state) : res val :=
  match suffix_of t with
  | None => Exc "ValueError" s
  | Some x => let m := "_" ++ name ++ x in mod_attr pkg m (import_ext pkg m s)
  end.

Definition members (m c : string) : option (list (string * gdef)) :=
  match assoc m P with
  | Some defs => match assoc c defs with Some (GClass l) => Some l | _ => None end
  | None => None
  end.

(** Built-in functions and functions of NumPy. *)
Definition prim (p : string) (args : list val) (s : state) : res val :=
  if String.eqb p "len" then
    match args with [VTuple l] => Ok (VInt (Z.of_nat (List.length l))) s | _ => Out end
  else if String.eqb p "min" then
    match args with [VInt a; VInt b] => Ok (VInt (Z.min a b)) s | _ => Out end
  else if String.eqb p "isinstance" then
    match args with
    | [VInst m c _; VClass m' c'] => Ok (VBool (String.eqb m m' && String.eqb c c')) s
    | _ => Out
    end
  else if String.eqb p "import_module" then
    match args with
    | [VStr name; VType t] => let '(pkg, x) := rsplit name in import_module pkg x t s
    | [_] => Exc "TypeError" s
    | _ => Out
    end
  else if String.eqb p "__import__" then
    match args with [VStr pkg; VStr m] => Ok (VMod pkg) (import_ext pkg m s) | _ => Out end
  else if String.eqb p "numpy.array" then
    match args with
    | [VBlock i d sh] | [VArray i d sh] => Ok (VArray i d sh) s
    | [VInst _ _ fs] => match assoc "block" fs with Some (VBlock i d sh) => Ok (VArray i d sh) s | _ => Out end
    | _ => Out
    end
  else Out.
Definition builtins : list (string * val) :=
  [("len", VPrim "len"); ("min", VPrim "min"); ("isinstance", VPrim "isinstance"); ("getattr", VPrim "getattr");
   ("__import__", VPrim "__import__"); ("reduce", VPrim "reduce"); ("map", VPrim "map");
   ("float", VType TyFloat); ("complex", VType TyComplex); ("int", VType TyInt); ("bool", VType TyBool)].

Fixpoint eval (n : nat) (m : string) (loc : list string) (en : env) (e : expr) (s : state) {struct n} : res val :=
  match n with
  | O => Out
  | S n =>
    match e with
    | EVal v => Ok v s
    | EName x =>
      match assoc x en with
      | Some v => Ok v s
      | None =>
        if mem x loc then Exc "UnboundLocalError" s
        else match mod_attr m x s with
             | Exc _ _ => match assoc x builtins with Some v => Ok v s | None => Exc "NameError" s end
             | r => r
             end
      end
    | EAttr e a => bind (eval n m loc en e s) (fun v s => getattr n v a s)
    | ETuple es => bind (evals n m loc en es s) (fun vs s => Ok (VTuple vs) s)
    | EIdx e i =>
      bind (evals n m loc en [e; i] s) (fun vs s =>
      match vs with
      | [VTuple l; VInt z] =>
        match nth_error l (Z.to_nat z) with Some v => if 0 <=? z then Ok v s else Out | None => Exc "IndexError" s end
      | [VDict l; VStr k] => match assoc k l with Some v => Ok v s | None => Exc "KeyError" s end
      | _ => Out
      end)
    | EEq a b =>
      bind (evals n m loc en [a; b] s) (fun vs s =>
      match vs with
      | [v; w] => match py_eq v w with Some r => Ok (VBool r) s | None => Out end
      | _ => Out
      end)
    | EIn a b =>
      bind (evals n m loc en [a; b] s) (fun vs s =>
      match vs with
      | [v; VTuple l] => match any_eq v l with Some r => Ok (VBool r) s | None => Out end
      | [VStr k; VDict l] => Ok (VBool (match assoc k l with Some _ => true | None => false end)) s
      | [_; VType _] => Exc "TypeError" s (* a type cannot be iterated over *)
      | _ => Out
      end)
    | EAnd a b => bind (eval n m loc en a s) (fun v s => if truth v then eval n m loc en b s else Ok v s)
    | EOr a b => bind (eval n m loc en a s) (fun v s => if truth v then Ok v s else eval n m loc en b s)
    | ENot a => bind (eval n m loc en a s) (fun v s => Ok (VBool (negb (truth v))) s)
    | EAdd a b => bind (evals n m loc en [a; b] s) (fun vs s => match vs with [VInt x; VInt y] => Ok (VInt (x + y)) s | _ => Out end)
    | ESub a b => bind (evals n m loc en [a; b] s) (fun vs s => match vs with [VInt x; VInt y] => Ok (VInt (x - y)) s | _ => Out end)
    | ECall f args kw =>
      bind (eval n m loc en f s) (fun vf s =>
      bind (evals n m loc en args s) (fun vs s =>
      bind (evals n m loc en (map snd kw) s) (fun ks s =>
      call n vf vs (combine (map fst kw) ks) s)))
    end
  end
with evals (n : nat) (m : string) (loc : list string) (en : env) (es : list expr) (s : state) {struct n} : res (list val) :=
  match n with
  | O => Out
  | S n =>
    match es with
    | [] => Ok [] s
    | e :: es => bind (eval n m loc en e s) (fun v s => bind (evals n m loc en es s) (fun vs s => Ok (v :: vs) s))
    end
  end
with getattr (n : nat) (v : val) (a : string) (s : state) {struct n} : res val :=
  match n with
  | O => Out
  | S n =>
    match v with
    | VMod m => mod_attr m a s
    | VInst m c fs =>
      if String.eqb a "__class__" then Ok (VClass m c) s
      else match assoc a fs with
      | Some v => Ok v s
      | None =>
        match members m c with
        | Some l =>
          match assoc a l with
          | Some (GVal v) => Ok v s
          | Some (GFun _) => Ok (VMeth m c a v) s
          | Some (GProp f) => bind (callfn n m f [v] [] s) (fun r s => Ok (fst r) s)
          | _ => Exc "AttributeError" s
          end
        | None => Out
        end
      end
    | VClass m c =>
      match members m c with
      | Some l => match assoc a l with Some (GVal v) => Ok v s | Some _ => Out | None => Exc "AttributeError" s end
      | None => Out
      end
    | VBlock _ d sh =>
      if String.eqb a "dtype" then Ok (VType (Dtype d)) s
      else if String.eqb a "shape" then Ok (VTuple (map VInt sh)) s
      else if String.eqb a "size" then Ok (VNMeth a v) s
      else Out
    | VArray _ d sh =>
      if String.eqb a "dtype" then Ok (VType (Dtype d)) s
      else if String.eqb a "shape" then Ok (VTuple (map VInt sh)) s
      else Out
    | VObj c d _ =>
      match methods c d with
      | Some (ms, props) =>
        if mem a props then Ok (VNum (w_num W {| ev_fun := a; ev_args := [("self", v)] |})) s
        else match assoc a ms with Some _ => Ok (VNMeth a v) s | None => Exc "AttributeError" s end
      | None => Out
      end
    | VEnumT ty =>
      match assoc ty enums with
      | Some l => match assoc a l with Some z => Ok (VEnum ty z) s | None => Exc "AttributeError" s end
      | None => Out
      end
    | VNone | VBool _ | VInt _ | VNum _ | VCplx _ | VStr _ | VTuple _ => Exc "AttributeError" s
    | _ => Out
    end
  end
with call (n : nat) (f : val) (args : list val) (kw : env) (s : state) {struct n} : res val :=
  match n with
  | O => Out
  | S n =>
    match f with
    | VFun m x =>
      match assoc m P with
      | Some defs =>
        match assoc x defs with
        | Some (GFun f) => bind (callfn n m f args kw s) (fun r s => Ok (fst r) s)
        | _ => Out
        end
      | None => Out
      end
    | VMeth m c x self =>
      match members m c with
      | Some l =>
        match assoc x l with
        | Some (GFun f) => bind (callfn n m f (self :: args) kw s) (fun r s => Ok (fst r) s)
        | _ => Out
        end
      | None => Out
      end
    | VClass m c =>
      match members m c with
      | Some l =>
        match assoc "__init__" l with
        | Some (GFun f) =>
          bind (callfn n m f (VInst m c [] :: args) kw s) (fun r s => match assoc "self" (snd r) with Some o => Ok o s | None => Out end)
        | _ => Out
        end
      | None => Out
      end
    | VInst m c _ =>
      match members m c with
      | Some l => match assoc "__call__" l with Some (GFun _) => call n (VMeth m c "__call__" f) args kw s | _ => Exc "AttributeError" s end
      | None => Out
      end
    | VNative m x =>
      match ext m with
      | Some defs => match assoc x defs with Some ovs => native_call W ovs args s | None => Out end
      | None => Out
      end
    | VObj c d _ =>
      match methods c d with
      | Some (ms, _) => match assoc "__call__" ms with Some ovs => native_call W ovs (f :: args) s | None => Exc "TypeError" s end
      | None => Out
      end
    | VNMeth x (VBlock _ _ sh) =>
      (* Block::size(dim, d): /repo/python/src/block_api.hpp:33-35 *)
      match args with
      | [VInt D; VInt d] => if D =? Z.of_nat (List.length sh) then
                              match nth_error sh (Z.to_nat d) with Some z => Ok (VInt z) s | None => Out end
                            else Out
      | _ => Out
      end
    | VNMeth x (VObj c d i) =>
      match methods c d with
      | Some (ms, _) => match assoc x ms with Some ovs => native_call W ovs (VObj c d i :: args) s | None => Out end
      | None => Out
      end
    | VPrim p =>
      if String.eqb p "getattr" then match args with [v; VStr a] => getattr n v a s | _ => Out end
      else prim p args s
    | VNone | VBool _ | VInt _ | VNum _ | VStr _ | VTuple _ => Exc "TypeError" s
    | _ => Out
    end
  end
with callfn (n : nat) (m : string) (f : fn) (args : list val) (kw : env) (s : state) {struct n} : res (val * env) :=
  match n with
  | O => Out
  | S n =>
    match bind_args f args kw with
    | None => Exc "TypeError" s
    | Some en =>
      bind (exec n m (assigned (f_body f)) en (f_body f) s)
        (fun r s => Ok (match fst r with Some v => v | None => VNone end, snd r) s)
    end
  end
with exec (n : nat) (m : string) (loc : list string) (en : env) (b : list stmt) (s : state) {struct n} : res (option val * env) :=
  match n with
  | O => Out
  | S n =>
    match b with
    | [] => Ok (None, en) s
    | c :: rest =>
      match c with
      | SPass => exec n m loc en rest s
      | SAssign x e => bind (eval n m loc en e s) (fun v s => exec n m loc (set x v en) rest s)
      | SAttr x a e =>
        bind (eval n m loc en e s) (fun v s =>
          match assoc x en with
          | Some (VInst mm cc fs) => exec n m loc (set x (VInst mm cc (set a v fs)) en) rest s
          | _ => Out
          end)
      | SExpr e => bind (eval n m loc en e s) (fun _ s => exec n m loc en rest s)
      | SIf e yes no =>
        bind (eval n m loc en e s) (fun v s =>
        bind (exec n m loc en (if truth v then yes else no) s) (fun r s =>
        match fst r with None => exec n m loc (snd r) rest s | Some _ => Ok r s end))
      | SReturn e => bind (eval n m loc en e s) (fun v s => Ok (Some v, en) s)
      | SRaise x => Exc x s
      end
    end
  end.
End Interp.
