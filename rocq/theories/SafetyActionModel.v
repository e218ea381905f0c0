(** The concrete input and output actions:
    includes/eeros/safety/InputAction.hpp, includes/eeros/safety/OutputAction.hpp. *)
From Verif Require Import Prelude SafetyModel.
From Coq Require Import Floats.SpecFloat.
Open Scope Z_scope.

(** C++ [a < b] and [a == b] on values of the same type T.  Comparisons between values of
    different types do not type check in C++; they are [false] here. *)
Definition sv_lt (a b : sval) : bool :=
  match a, b with
  | VBool a, VBool b => negb a && b
  | VInt a, VInt b => a <? b
  | VDouble a, VDouble b => SFltb a b
  | _, _ => false
  end.
Definition sv_eq (a b : sval) : bool :=
  match a, b with
  | VBool a, VBool b => Bool.eqb a b
  | VInt a, VInt b => a =? b
  | VDouble a, VDouble b => SFeqb a b
  | _, _ => false
  end.

(** InputAction.hpp:24-30. *)
Definition ignore_action (i : nat) : iaction := {| ia_input := i; ia_fire := fun _ => None |}.
(** InputAction.hpp:37-43: [get() != value]. *)
Definition check_action (i : nat) (value : sval) (e : evid) : iaction :=
  {| ia_input := i; ia_fire := fun v => if negb (sv_eq v value) then Some e else None |}.
(** InputAction.hpp:55-69; [value > min] is [min < value]. *)
Definition range_action (i : nat) (mn mx : sval) (e : evid) (offRange : bool) : iaction :=
  {| ia_input := i;
     ia_fire := fun v =>
       if offRange
       then (if sv_lt mn v && sv_lt v mx then Some e else None)
       else (if sv_lt v mn || sv_lt mx v then Some e else None) |}.

(** OutputAction.hpp:22-58.  State of an output action; [oset] is set(): the new state and
    the value written to the output ([None]: nothing written).  The toggle action keeps
    [value], [low] and [high]. *)
Inductive ostate :=
| OLeave
| OSetTo (value : sval)
| OToggle (value low high : sval).
Definition oset (s : ostate) : ostate * option sval :=
  match s with
  | OLeave => (OLeave, None)
  | OSetTo v => (OSetTo v, Some v)
  | OToggle v lo hi => (OToggle (if sv_eq v lo then hi else lo) lo hi, Some v)
  end.
Fixpoint osets (s : ostate) (n : nat) : list (option sval) :=
  match n with
  | O => []
  | S n => snd (oset s) :: osets (fst (oset s)) n
  end.
