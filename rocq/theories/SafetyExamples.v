(** Concrete configurations used by the non-vacuity examples and the refutations. *)
From Verif Require Import Prelude SafetyModel SafetySpec SafetyActionModel SafetyRaceModel.
From Coq Require Import Floats.SpecFloat.
Open Scope Z_scope.

Definition blank : level := {| lid := -1; ltrans := []; lin := []; lout := []; lact := false |}.
(** Level 0 (off) .. 2 (run): each checks input 0 (emergency, must be true, else event 9) and
    drives output 0. *)
Definition ex_level : level :=
  {| lid := -1; ltrans := []; lin := [Some (check_action 0 (VBool true) 9)];
     lout := [Some {| oa_output := 0; oa_id := 1 |}]; lact := true |}.
Definition ex_p0 : props :=
  {| pheap := fun l => if Nat.ltb l 3 then ex_level else blank; plevels := []; pcount := 0;
     pentry := Some 0%nat; pcritIn := [0%nat]; pcritOut := [0%nat] |}.
(** event 1: 0 -> 1, event 2: 1 -> 2 (private), event 9: from every level >= 1 to 0. *)
Definition ex_p1 : props :=
  addLevel (addLevel (addLevel ex_p0 0) 1) 2.
Definition ex_p : props :=
  addEventToLevelAndAbove
    (addEventToLevel (addEventToLevel ex_p1 0 1 1%nat false) 1 2 2%nat true)
    1 9 0%nat false.
Definition ex_ok : nat -> sval := fun _ => VBool true.
Definition ex_estop : nat -> sval := fun _ => VBool false.
Definition ex_ops : list sop :=
  [Cycle ex_ok []; Trigger 1 false; Cycle ex_ok []; Trigger 2 false; Cycle ex_ok [(2, true)];
   Cycle ex_ok []; Cycle ex_ok []; Cycle ex_estop []; Cycle ex_ok []].
Definition ex_s0 : sys := {| cur := Some 0%nat; nxt := Some 0%nat; nact := upd (fun _ => 0) 0%nat 0 |}.

(** A level 5 with events to 7, itself and 9. *)
Definition ex_self : heap := fun l =>
  {| lid := Z.of_nat l;
     ltrans := if Nat.eqb l 5 then [(1, (7%nat, false)); (2, (5%nat, false)); (3, (9%nat, false))] else [];
     lin := []; lout := []; lact := false |}.
Definition ex_self_s : sys := {| cur := Some 5%nat; nxt := Some 5%nat; nact := fun _ => 0 |}.

(** Accepted although the entry level 3 was never added: nothing of it was checked. *)
Definition ex_unreg : props :=
  {| pheap := pheap ex_p; plevels := plevels ex_p; pcount := pcount ex_p; pentry := Some 3%nat;
     pcritIn := [0%nat]; pcritOut := [0%nat] |}.

(** Level 5 --1--> 7, level 5 --2--> 2, nothing leads from 2 to 7. *)
Definition ex_race : heap := fun l =>
  {| lid := Z.of_nat l;
     ltrans := if Nat.eqb l 5 then [(1, (7%nat, false)); (2, (2%nat, false))] else [];
     lin := []; lout := []; lact := false |}.
Definition ex_race_ops : list rop :=
  [RRead 1 false;                     (* thread A: destination of event 1 in level 5 is 7 *)
   RRead 2 false; RTest 1; RWrite 1;  (* thread B: event 2, pending level 2 *)
   RAdopt;                            (* the cycle enters level 2 *)
   RTest 0; RWrite 0;                 (* thread A goes on: pending level becomes 7 *)
   RAdopt].
