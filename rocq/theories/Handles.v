(** Model of the objects that own OpenCL handles (ovxx/opencl/memory_object.hpp,
    buffer.hpp, context.hpp, command_queue.hpp, program.hpp, kernel.hpp,
    device.hpp) and of the default platform, device, context and queue
    (platform.cpp, device.cpp, context.cpp, command_queue.cpp).  The OpenCL
    runtime is given by its documented behaviour: every object counts the
    references to it and is gone when there are none; retaining, releasing or
    using an object that is gone is undefined; retaining or releasing a root
    device has no effect; releasing the null handle is an error.
    Simplifications: the runtime's own references from one object to another
    are not modelled (it keeps what it needs); one thread; running out of
    resources in clRetain is not modelled. *)
From Coq Require Import List Arith Bool.
Import ListNotations.

Inductive kind := Mem | Buf | Ctx | Que | Prog | Kern | Dev.
Definition kind_eqb (a b : kind) : bool :=
  match a, b with
  | Mem, Mem | Buf, Buf | Ctx, Ctx | Que, Que | Prog, Prog | Kern, Kern | Dev, Dev => true
  | _, _ => false
  end.

(** [cnt h]: references to object [h] that the runtime counts; [vars x]: the
    C++ object named [x], if alive: its class and its handle, if not null;
    [own h]: references held by the program itself through the C interface;
    [next]: handles from here on are not in use. *)
Record state := { cnt : nat -> nat; vars : nat -> option (kind * option nat); own : nat -> nat; next : nat }.
Definition upd {A} (f : nat -> A) (k : nat) (a : A) : nat -> A := fun j => if j =? k then a else f j.

(** [Bad]: not a C++ program (a name that is not alive, or is already, or a
    reference that the program does not have); [Fault]: undefined behaviour,
    or an exception that leaves a destructor. *)
Inductive result := Ok (s : state) | Bad | Fault.

Section Runtime.
(** [root h]: the handle is a root device; [cl12]: OpenCL 1.2 or later. *)
Context (root : nat -> bool) (cl12 : bool).

Definition retain (h : nat) (s : state) : result :=
  if root h then Ok s else
  if cnt s h =? 0 then Fault else Ok {| cnt := upd (cnt s) h (cnt s h + 1); vars := vars s; own := own s; next := next s |}.
Definition release (h : nat) (s : state) : result :=
  if root h then Ok s else
  if cnt s h =? 0 then Fault else Ok {| cnt := upd (cnt s) h (cnt s h - 1); vars := vars s; own := own s; next := next s |}.
(** if (impl_) retain / release. *)
Definition retain_opt (i : option nat) (s : state) : result := match i with None => Ok s | Some h => retain h s end.
Definition release_opt (i : option nat) (s : state) : result := match i with None => Ok s | Some h => release h s end.
(** Without the test: an error code, hence an exception (exception.hpp
    70-75), for the null handle. *)
Definition release_always (i : option nat) (s : state) : result := match i with None => Fault | Some h => release h s end.
Definition set_var (x : nat) (v : option (kind * option nat)) (s : state) : state :=
  {| cnt := cnt s; vars := upd (vars s) x v; own := own s; next := next s |}.
Definition set_own (h n : nat) (s : state) : state := {| cnt := cnt s; vars := vars s; own := upd (own s) h n; next := next s |}.
Definition andThen (r : result) (f : state -> result) : result := match r with Ok s => f s | Bad => Bad | Fault => Fault end.

(** Constructors from a handle: memory_object.hpp 32-36, buffer.hpp 24,
    context.hpp 24-28, command_queue.hpp 24-28, program.hpp 28-32,
    kernel.hpp 27-31, device.hpp 51-60. *)
Definition wrap (k : kind) (h : nat) (ret : bool) (s : state) : result :=
  match k with
  | Dev => if cl12 && ret then retain h s else Ok s
  | _ => if ret then retain h s else Ok s
  end.
(** Copy constructors: memory_object.hpp 37-41, buffer.hpp 32, context.hpp
    55-58, command_queue.hpp 37-41, program.hpp 33-37, kernel.hpp 32-36,
    device.hpp 61. *)
Definition copy (k : kind) (i : option nat) (s : state) : result :=
  match k with
  | Dev => Ok s
  | _ => retain_opt i s
  end.
(** Destructors: memory_object.hpp 42-45, context.hpp 59, command_queue.hpp
    42, program.hpp 48, kernel.hpp 37, device.hpp 62-67. *)
Definition destroy (k : kind) (i : option nat) (s : state) : result :=
  match k with
  | Mem | Buf | Ctx | Que => release_opt i s
  | Prog | Kern => release_always i s
  | Dev => if cl12 then release_always i s else Ok s
  end.
(** Assignment operators: memory_object.hpp 46-55, context.hpp 60-69,
    command_queue.hpp 43-52, program.hpp 38-47, kernel.hpp 38-47, device.hpp
    68-81; buffer.hpp 33-34 has no return statement.  [x] is the object on
    the left, [i] its handle; [j] that of the object on the right. *)
Definition assign (k : kind) (x : nat) (i j : option nat) (s : state) : result :=
  match k with
  | Buf => Fault
  | Dev => if cl12 then andThen (release_opt i s) (fun s => retain_opt j (set_var x (Some (k, j)) s))
           else Ok (set_var x (Some (k, j)) s)
  | _ => andThen (release_opt i s) (fun s => retain_opt j (set_var x (Some (k, j)) s))
  end.

(** What a program can do.  [Create]: a constructor that asks the runtime for
    a new object (buffer.hpp 25-31, context.hpp 29-54, command_queue.hpp
    29-36, program.hpp 50-59, kernel.hpp 92-98); if the runtime refuses
    ([ok] false) it throws and there is no C++ object.  [Raw]: the program
    gets a new object from the C interface and owns a reference.  [Use]: the
    handle is given to a function of the runtime, which refuses the null
    handle with an exception. *)
Inductive op :=
| Default (x : nat) (k : kind)
| Create (x : nat) (k : kind) (ok : bool)
| Wrap (x : nat) (k : kind) (h : nat) (ret : bool)
| Copy (x y : nat)
| Assign (x y : nat)
| Destroy (x : nat)
| Use (x : nat)
| Raw
| RawRetain (h : nat)
| RawRelease (h : nat).

(** A handle that the program may name: a root device or one that it owns a
    reference to.  Only devices are root devices, and before OpenCL 1.2 all
    devices are. *)
Definition mine (k : option kind) (h : nat) (s : state) : bool :=
  if root h then match k with Some Dev => true | _ => false end
  else negb (own s h =? 0) && match k with Some Dev => cl12 | _ => true end.

Definition step (o : op) (s : state) : result :=
  match o with
  | Default x k => match vars s x with Some _ => Bad | None => Ok (set_var x (Some (k, None)) s) end
  | Create x k ok =>
      match vars s x, k with
      | Some _, _ | _, Dev | _, Mem => Bad
      | None, _ => if ok then
          let h := next s in
          if root h then Bad else
          Ok {| cnt := upd (cnt s) h 1; vars := upd (vars s) x (Some (k, Some h)); own := own s; next := S h |}
        else Ok s
      end
  | Wrap x k h ret =>
      match vars s x with
      | Some _ => Bad
      | None => if mine (Some k) h s then
                  andThen (wrap k h ret s) (fun s =>
                    let s := set_var x (Some (k, Some h)) s in
                    Ok (if ret || root h then s else set_own h (own s h - 1) s))
                else Bad
      end
  | Copy x y =>
      match vars s x, vars s y with
      | None, Some (k, i) => andThen (copy k i s) (fun s => Ok (set_var x (Some (k, i)) s))
      | _, _ => Bad
      end
  | Assign x y =>
      match vars s x, vars s y with
      | Some (k, i), Some (k', j) => if negb (kind_eqb k k') then Bad else
          if x =? y then match k with Buf => Fault | _ => Ok s end else assign k x i j s
      | _, _ => Bad
      end
  | Destroy x =>
      match vars s x with
      | Some (k, i) => andThen (destroy k i s) (fun s => Ok (set_var x None s))
      | None => Bad
      end
  | Use x =>
      match vars s x with
      | Some (_, Some h) => if root h then Ok s else if cnt s h =? 0 then Fault else Ok s
      | Some (_, None) => Ok s
      | None => Bad
      end
  | Raw => let h := next s in if root h then Bad else
           Ok {| cnt := upd (cnt s) h 1; vars := vars s; own := upd (own s) h 1; next := S h |}
  | RawRetain h => if mine None h s then andThen (retain h s) (fun s => Ok (set_own h (own s h + 1) s)) else Bad
  | RawRelease h => if mine None h s then andThen (release h s) (fun s => Ok (set_own h (own s h - 1) s)) else Bad
  end.
Fixpoint run (l : list op) (s : state) : result := match l with [] => Ok s | o :: r => andThen (step o s) (run r) end.
End Runtime.

Definition start (n : nat) : state := {| cnt := fun _ => 0; vars := fun _ => None; own := fun _ => 0; next := n |}.

(** * Defaults *)

(** device.hpp 41-48: type of a device. *)
Inductive dtype := Cpu | Gpu | Accelerator.
(** A platform: its devices, and the one that stands for the type
    "default". *)
Record platform := { p_devices : list (nat * dtype); p_default : option nat }.
(** platform.cpp 20-43, with the value of OVXX_OPENCL_PLATFORM (0 if not
    set; a value that is not a number throws before this). *)
Definition default_platform (ps : list platform) (idx : nat) : option platform := nth_error ps idx.
(** The static objects of device.cpp 17, context.cpp 17 and command_queue.cpp
    17: the device; the devices of the context; the queue's context and
    device. *)
Record defaults := { s_dev : option nat; s_ctx : option (list nat); s_que : option (list nat * nat) }.
Definition none_yet : defaults := {| s_dev := None; s_ctx := None; s_que := None |}.
Definition is_accelerator (d : nat * dtype) : bool := match snd d with Accelerator => true | _ => false end.
(** device.cpp 15-31; [None]: an exception. *)
Definition default_device (ps : list platform) (idx : nat) (s : defaults) : defaults * option nat :=
  match s_dev s with
  | Some d => (s, Some d)
  | None =>
      match default_platform ps idx with
      | None => (s, None)
      | Some pl =>
          match map fst (filter is_accelerator (p_devices pl)) with
          | d :: _ => ({| s_dev := Some d; s_ctx := s_ctx s; s_que := s_que s |}, Some d)
          | [] => match map fst (p_devices pl) with
                  | d :: _ => ({| s_dev := Some d; s_ctx := s_ctx s; s_que := s_que s |}, Some d)
                  | [] => (s, None)
                  end
          end
      end
  end.
(** context.cpp 20-29: a context of the platform's default device;
    clCreateContextFromType fails if there is none. *)
Definition default_context (ps : list platform) (idx : nat) (s : defaults) : defaults * option (list nat) :=
  match s_ctx s with
  | Some c => (s, Some c)
  | None =>
      match default_platform ps idx with
      | None => (s, None)
      | Some pl => match p_default pl with
                   | Some d => ({| s_dev := s_dev s; s_ctx := Some [d]; s_que := s_que s |}, Some [d])
                   | None => (s, None)
                   end
      end
  end.
(** command_queue.cpp 15-25: clCreateCommandQueue refuses a device that is
    not one of the context. *)
Definition default_queue (ps : list platform) (idx : nat) (s : defaults) : defaults * option (list nat * nat) :=
  match s_que s with
  | Some q => (s, Some q)
  | None =>
      match default_context ps idx s with
      | (s, None) => (s, None)
      | (s, Some c) =>
          match default_device ps idx s with
          | (s, None) => (s, None)
          | (s, Some d) => if existsb (Nat.eqb d) c
                           then ({| s_dev := s_dev s; s_ctx := s_ctx s; s_que := Some (c, d) |}, Some (c, d))
                           else (s, None)
          end
      end
  end.
Inductive call := GetDevice | GetContext | GetQueue.
Definition do_call (ps : list platform) (idx : nat) (s : defaults) (c : call) : defaults :=
  match c with
  | GetDevice => fst (default_device ps idx s)
  | GetContext => fst (default_context ps idx s)
  | GetQueue => fst (default_queue ps idx s)
  end.

(** * Specification *)

(** How many of the C++ objects with a name below [n] refer to [h]. *)
Fixpoint holders (s : state) (h n : nat) : nat :=
  match n with
  | 0 => 0
  | S m => holders s h m + match vars s m with Some (_, Some g) => if g =? h then 1 else 0 | _ => 0 end
  end.
(** Names used by a program lie below [n]. *)
Definition names_below (n : nat) (o : op) : Prop :=
  match o with
  | Default x _ | Create x _ _ | Wrap x _ _ _ | Destroy x | Use x => x < n
  | Copy x y | Assign x y => x < n /\ y < n
  | _ => True
  end.
(** Devices, if any, are root devices (sub-devices are not used). *)
Definition root_devices (root : nat -> bool) (o : op) : Prop :=
  match o with Wrap _ Dev h _ => root h = true | _ => True end.
