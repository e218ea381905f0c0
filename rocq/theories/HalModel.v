(** Model of the hardware abstraction layer registry, /repo/src/hal/HAL.cpp and /repo/includes/eeros/hal/HAL.hpp.
    The input half (inputs, exclusiveReservedInputs, nonExclusiveInputs) and the output half have the same code;
    [side] is one half and [hal] the pair. *)
From Coq Require Import String List Bool Arith.
From Verif Require Import Prelude.
Import ListNotations.

(** What a dynamic_cast to Input<bool> / ScalableInput<double> sees (Input.hpp 9-28, ScalableInput.hpp 11-33,
    Output.hpp 13-35, ScalableOutput.hpp 13-33): a signal object is logic, scalable, or neither. *)
Inductive kind := Logic | Scalable | Other.
Definition kind_eqb (a b : kind) : bool :=
  match a, b with Logic, Logic | Scalable, Scalable | Other, Other => true | _, _ => false end.

(** A signal object pointer; [None] is nullptr. The objects are identified by their address. *)
Definition ptr := option nat.
Definition ptr_eqb (p q : ptr) : bool :=
  match p, q with Some a, Some b => a =? b | None, None => true | _, _ => false end.

(** The immutable part of the objects: getId() (Input.hpp 21) and the dynamic type. *)
Record objects := { id_of : nat -> string; kind_of : nat -> kind }.

(** HAL.hpp 69-75. std::map: [tbl n = None] when there is no entry. std::unordered_set: membership test. *)
Record side := { tbl : string -> option ptr; excl : ptr -> bool; shared : ptr -> bool }.
Definition side0 : side := {| tbl := fun _ => None; excl := fun _ => false; shared := fun _ => false |}.

Definition set_add (s : ptr -> bool) (p : ptr) : ptr -> bool := fun q => if ptr_eqb q p then true else s q.
Definition set_del (s : ptr -> bool) (p : ptr) : ptr -> bool := fun q => if ptr_eqb q p then false else s q.
Definition tbl_set (t : string -> option ptr) (n : string) (p : ptr) : string -> option ptr :=
  fun m => if String.eqb m n then Some p else t m.

(** std::map::operator[]: an entry with a null pointer is inserted when the key is missing. *)
Definition touch (s : side) (n : string) : side :=
  match tbl s n with
  | Some _ => s
  | None => {| tbl := tbl_set (tbl s) n None; excl := excl s; shared := shared s |}
  end.
Definition at_ (s : side) (n : string) : ptr := match tbl s n with Some p => p | None => None end.

(** The requests.  [RAny]: getInput/getOutput, [RKind k]: getLogicInput/getLogicOutput, getScalableInput/getScalableOutput. *)
Inductive want := RAny | RLogic | RScalable.
Inductive op :=
| Add (p : ptr)
| Release (n : string)
| Get (w : want) (n : string) (exclusive : bool).

(** Result of a call: a returned pointer (null for void functions) or an exception. *)
Inductive result := Ret (p : ptr) | Exc.

Section Side.
  Variable Ob : objects.

  (** dynamic_cast, lines 144, 162, 195, 213 *)
  Definition casts (w : want) (p : ptr) : bool :=
    match w, p with
    | RAny, _ => true
    | _, None => false
    | RLogic, Some a => kind_eqb (kind_of Ob a) Logic
    | RScalable, Some a => kind_eqb (kind_of Ob a) Scalable
    end.

  (** Lines 71-80 / 81-90 *)
  Definition do_add (p : ptr) (s : side) : side * result :=
    match p with
    | None => (s, Exc)
    | Some a =>
      match tbl s (id_of Ob a) with
      | Some _ => (s, Exc)
      | None => ({| tbl := tbl_set (tbl s) (id_of Ob a) (Some a); excl := excl s; shared := shared s |}, Ret None)
      end
    end.

  (** Lines 92-108 / 110-126 *)
  Definition do_release (n : string) (s0 : side) : side * result :=
    let s := touch s0 n in
    let p := at_ s n in
    let f1 := shared s p in
    let s := if f1 then {| tbl := tbl s; excl := excl s; shared := set_del (shared s) p |} else s in
    let f2 := excl s p in
    let s := if f2 then {| tbl := tbl s; excl := set_del (excl s) p; shared := shared s |} else s in
    (s, if f1 || f2 then Ret None else Exc).

  (** Lines 128-141, 143-159, 161-177 / 179-192, 194-210, 212-228 *)
  Definition do_get (w : want) (n : string) (exclusive : bool) (s0 : side) : side * result :=
    let s := touch s0 n in
    let p := at_ s n in
    if negb (casts w p) then (s, Exc)
    else if excl s p then (s, Exc)
    else if exclusive then
      if shared s p then (s, Exc)
      else ({| tbl := tbl s; excl := set_add (excl s) p; shared := shared s |}, Ret p)
    else ({| tbl := tbl s; excl := excl s; shared := set_add (shared s) p |}, Ret p).

  Definition step (s : side) (o : op) : side * result :=
    match o with
    | Add p => do_add p s
    | Release n => do_release n s
    | Get w n e => do_get w n e s
    end.

  (** A history: the calls made so far with their results, in order. *)
  Fixpoint run (s : side) (os : list op) : side * list result :=
    match os with
    | [] => (s, [])
    | o :: os => let '(s1, r) := step s o in let '(s2, rs) := run s1 os in (s2, r :: rs)
    end.
End Side.

(** The whole registry: calls on inputs and on outputs. *)
Record hal := { ins : side; outs : side }.
Definition hal_step (Oi Oo : objects) (h : hal) (o : op + op) : hal * result :=
  match o with
  | inl o => let '(s, r) := step Oi (ins h) o in ({| ins := s; outs := outs h |}, r)
  | inr o => let '(s, r) := step Oo (outs h) o in ({| ins := ins h; outs := s |}, r)
  end.
