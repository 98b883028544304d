(** Model of classes that own a resource: UniqueFunction in
    core/utils/unique_function.hpp, Loader in core/source_file_info_loaders/loader.hpp,
    InputFile in core/io/input_file.hpp and ScopeExitHandler in
    core/utils/scope_exit_handler.hpp. A program is a sequence of operations on
    variables of such a type. *)

From Coq Require Import Bool Arith.
From Coq Require Import List.
Import ListNotations.

(** What happens to resources, that is, objects on the heap and files. *)
Inductive event :=
| Acquire (r : nat)
| Release (r : nat)
| Use (r : nat).

Inductive outcome (X : Type) : Type :=
| Done (x : X)
| Rejected                  (* there is no such object, or an assertion fails *)
| Undefined.
Arguments Done {X}.
Arguments Rejected {X}.
Arguments Undefined {X}.

(** The special members of a class. *)
Record members (W : Type) := mk_members {
  construct : nat -> W;                       (* from a new resource *)
  move_construct : W -> W * W;                (* the new object, and what is left *)
  move_assign : W -> W -> W * W * list event; (* the object, what is left, and what is done *)
  self_assign : W -> W * list event;          (* x = std::move(x) *)
  destruct_ : W -> list event;
  use : W -> outcome (list event);
  copy : W -> nat -> outcome (W * list event) (* by use of a new resource *)
}.
Arguments mk_members {W}.
Arguments construct {W}.
Arguments move_construct {W}.
Arguments move_assign {W}.
Arguments self_assign {W}.
Arguments destruct_ {W}.
Arguments use {W}.
Arguments copy {W}.

(** UniqueFunction: m_data, and whether r_dtor is not null_dtor *)
Record unique_function := mk_uf { data : nat; armed : bool }.

Definition uf_dtor (f : unique_function) : list event := if armed f then [Release (data f)] else [].

Definition uf_members : members unique_function := mk_members
  (fun r => mk_uf r true)                                                    (* lines 22-28 *)
  (fun other => (other, mk_uf (data other) false))                           (* 33-37 *)
  (fun this other => (other, mk_uf (data other) false, uf_dtor this))        (* 39-47 *)
  (fun this => (mk_uf (data this) false, uf_dtor this))                      (* 39-47 *)
  uf_dtor                                                                    (* 49-52 *)
  (fun this => if armed this then Done [Use (data this)] else Rejected)      (* 54-58 *)
  (fun _ _ => Rejected).                                                     (* 30-31 *)

(** Loader: m_handle. Applying delete to a null pointer has no effect. *)
Definition loader_destroy (h : option nat) : list event := match h with Some r => [Release r] | None => [] end.

Definition loader_members : members (option nat) := mk_members
  Some                                                                       (* source_file_info_loaders/loader.hpp:112-132 *)
  (fun other => (other, None))                                               (* 80-87 *)
  (fun this other => (other, None, loader_destroy this))                     (* 89-98 *)
  (fun this => (None, loader_destroy this))
  loader_destroy                                                             (* 108-111 *)
  (fun this => match this with Some r => Done [Use r] | None => Rejected end)(* 141-151 *)
  (fun other r => match other with                                           (* 100-106; clone dereferences its argument, lines 51-54 *)
                  | Some h => Done (Some r, [Use h; Acquire r])
                  | None => Undefined
                  end).

(** InputFile: m_handle, where [None] is -1. reset does not change it. *)
Definition file_reset (h : option nat) : list event := match h with Some r => [Release r] | None => [] end.

Definition file_members : members (option nat) := mk_members
  Some                                                                       (* input_file.hpp:19-23 *)
  (fun other => (other, None))                                               (* 25-28 *)
  (fun this other => (other, this, file_reset this))                         (* 30-35 *)
  (fun this => (this, file_reset this))
  file_reset                                                                 (* 37-40 *)
  (fun this => Done (match this with Some r => [Use r] | None => [] end))    (* 42-45; read fails if the handle is -1 *)
  (fun _ _ => Rejected).

(** ScopeExitHandler: m_obj. Here, the resource is the duty to call the function, and
    calling it is Release. In assignment, there is no return statement (lines 21-25),
    which is undefined behaviour; the effect of what is there is shown. *)
Definition scope_destroy (h : option nat) : list event := match h with Some r => [Release r] | None => [] end.

Definition scope_members : members (option nat) := mk_members
  Some                                                                       (* scope_exit_handler.hpp:12-14 *)
  (fun other => (other, None))                                               (* 16-19 *)
  (fun this other => (other, None, []))                                      (* 21-25 *)
  (fun this => (None, []))                                                   (* 21-25 *)
  scope_destroy                                                              (* 27-30 *)
  (fun _ => Rejected)                                                        (* there is nothing to call *)
  (fun _ _ => Rejected).                                                     (* there is no copy constructor *)

Inductive operation :=
| New (x : nat)            (* X x{...} *)
| MoveNew (x y : nat)      (* X x{std::move(y)} *)
| Assign (x y : nat)       (* x = std::move(y) *)
| Drop (x : nat)           (* the end of the lifetime of x *)
| Call (x : nat)
| Copy (x y : nat).        (* X x{y} *)

Section Run.
  Context {W : Type} (m : members W).

  Record state := mk_state {
    variables : nat -> option W;
    next : nat;                (* the next resource *)
    history : list event       (* in chronological order *)
  }.

  Definition put (v : nat -> option W) (x : nat) (w : option W) : nat -> option W :=
    fun y => if Nat.eqb y x then w else v y.

  Definition start : state := mk_state (fun _ => None) 0 [].

  Definition perform (st : state) (op : operation) : outcome state :=
    let v := variables st in
    let h := history st in
    match op with
    | New x =>
        match v x with
        | Some _ => Rejected
        | None => Done (mk_state (put v x (Some (construct m (next st)))) (S (next st)) (h ++ [Acquire (next st)]))
        end
    | MoveNew x y =>
        match v x, v y with
        | None, Some other =>
            let '(new, rest) := move_construct m other in
            Done (mk_state (put (put v y (Some rest)) x (Some new)) (next st) h)
        | _, _ => Rejected
        end
    | Assign x y =>
        match v x, v y with
        | Some this, Some other =>
            if Nat.eqb x y then
              let '(this', e) := self_assign m this in
              Done (mk_state (put v x (Some this')) (next st) (h ++ e))
            else
              let '(this', rest, e) := move_assign m this other in
              Done (mk_state (put (put v y (Some rest)) x (Some this')) (next st) (h ++ e))
        | _, _ => Rejected
        end
    | Drop x =>
        match v x with
        | Some this => Done (mk_state (put v x None) (next st) (h ++ destruct_ m this))
        | None => Rejected
        end
    | Call x =>
        match v x with
        | Some this =>
            match use m this with
            | Done e => Done (mk_state v (next st) (h ++ e))
            | Rejected => Rejected
            | Undefined => Undefined
            end
        | None => Rejected
        end
    | Copy x y =>
        match v x, v y with
        | None, Some other =>
            match copy m other (next st) with
            | Done (new, e) => Done (mk_state (put v x (Some new)) (S (next st)) (h ++ e))
            | Rejected => Rejected
            | Undefined => Undefined
            end
        | _, _ => Rejected
        end
    end.

  Fixpoint run (st : state) (ops : list operation) : outcome state :=
    match ops with
    | [] => Done st
    | op :: ops' =>
        match perform st op with
        | Done st' => run st' ops'
        | Rejected => Rejected
        | Undefined => Undefined
        end
    end.
End Run.
Arguments state : clear implicits.
Arguments mk_state {W}.
Arguments variables {W}.
Arguments next {W}.
Arguments history {W}.
Arguments start {W}.
