(** The program examples/system/SystemTest3.cpp: the time domain thread with its blocks and the safety system with its level
    action, interleaved in any order; each label is one access to data shared by the threads.
    Values are exact, in units of 5e-10: the constant 0.5 gives one unit per nanosecond.  [None]: NaN. *)
From Verif Require Import Prelude SafetyModel.
Local Open Scope Z_scope.

(** SystemTest3.cpp 47-48 and 70-71: the levels; 68-69: the events. *)
Definition slStart : lref := 0%nat.
Definition slRamp : lref := 1%nat.
Definition evUp : evid := 0.
Definition evReset : evid := 1.

(** SafetyLevel.cpp: new levels; the level start gets an action (SystemTest3.cpp 55). *)
Definition heap0 : heap := fun l => {| lid := 0; ltrans := []; lin := []; lout := []; lact := Nat.eqb l slStart |}.

(** SystemTest3.cpp 47-52 and 64, in the order of the calls. *)
Definition test_props : props :=
  let p := {| pheap := heap0; plevels := []; pcount := 0; pentry := None; pcritIn := []; pcritOut := [] |} in
  let p := addLevel (addLevel p slStart) slRamp in
  let p := addEventToLevel p slStart evUp slRamp true in
  let p := addEventToLevel p slRamp evReset slStart false in
  {| pheap := pheap p; plevels := plevels p; pcount := pcount p; pentry := Some slStart;
     pcritIn := pcritIn p; pcritOut := pcritOut p |}.
Definition H : heap := pheap test_props.

(** SystemTest3.cpp 20: the limits -0.001 and 5. *)
Definition lower : Z := -2000000.
Definition upper : Z := 10000000000.

(** Where the time domain thread is: TimeDomain.cpp 25-28 with the blocks in the order of SystemTest3.cpp 25-27. *)
Inductive tpc :=
| TC                          (* Constant.hpp 49-53 *)
| TI0                         (* I.hpp 54-56: the level *)
| TI1 (en : bool)             (* 57-71: reads of the input and of prev *)
| TI2 (v : option Z) (t : Z)  (* 72-74: out and prev are written *)
| TK0                         (* SignalChecker.hpp 84-87, 101: the mutex, value, fired and limits *)
| TK1                         (* 102-105: the level *)
| TK2                         (* 106-107: triggerEvent *)
| TK3.                        (* 108 and the end of the scope *)

(** Where the safety system is: SafetySystem.cpp 81-123 with the action of SystemTest3.cpp 55-61.
    [n]: getNofActivations() as read by the action. *)
Inductive spc :=
| SIdle                       (* SafetySystem.cpp 83-88 *)
| SSet (n : Z)                (* SystemTest3.cpp 56-57 *)
| STrig                       (* 58 *)
| SReset                      (* 59 *)
| SEnd.                       (* SafetySystem.cpp 118 *)

(** [ss] safety system; [clk] System::getTimeNs; [src] time stamp of the output of the constant; [ifirst], [iprev], [iprevt],
    [iout] the integrator; [fired] of the checker. *)
Record st := {
  ss : sys; clk : Z; src : Z; ifirst : bool; iprev : option Z; iprevt : Z; iout : option Z; fired : bool; tp : tpc; sp : spc }.

Definition w_ss x s := {| ss := x; clk := clk s; src := src s; ifirst := ifirst s; iprev := iprev s; iprevt := iprevt s;
  iout := iout s; fired := fired s; tp := tp s; sp := sp s |}.
Definition w_clk x s := {| ss := ss s; clk := x; src := src s; ifirst := ifirst s; iprev := iprev s; iprevt := iprevt s;
  iout := iout s; fired := fired s; tp := tp s; sp := sp s |}.
Definition w_src x s := {| ss := ss s; clk := clk s; src := x; ifirst := ifirst s; iprev := iprev s; iprevt := iprevt s;
  iout := iout s; fired := fired s; tp := tp s; sp := sp s |}.
Definition w_first x s := {| ss := ss s; clk := clk s; src := src s; ifirst := x; iprev := iprev s; iprevt := iprevt s;
  iout := iout s; fired := fired s; tp := tp s; sp := sp s |}.
Definition w_prev x s := {| ss := ss s; clk := clk s; src := src s; ifirst := ifirst s; iprev := x; iprevt := iprevt s;
  iout := iout s; fired := fired s; tp := tp s; sp := sp s |}.
Definition w_int x t s := {| ss := ss s; clk := clk s; src := src s; ifirst := ifirst s; iprev := x; iprevt := t;
  iout := x; fired := fired s; tp := tp s; sp := sp s |}.
Definition w_fired x s := {| ss := ss s; clk := clk s; src := src s; ifirst := ifirst s; iprev := iprev s; iprevt := iprevt s;
  iout := iout s; fired := x; tp := tp s; sp := sp s |}.
Definition tgo x s := {| ss := ss s; clk := clk s; src := src s; ifirst := ifirst s; iprev := iprev s; iprevt := iprevt s;
  iout := iout s; fired := fired s; tp := x; sp := sp s |}.
Definition sgo x s := {| ss := ss s; clk := clk s; src := src s; ifirst := ifirst s; iprev := iprev s; iprevt := iprevt s;
  iout := iout s; fired := fired s; tp := tp s; sp := x |}.

(** SafetySystem::getCurrentLevel compared with a level; of two levels the upper one is the only one with >= itself. *)
Definition level_is (s : st) (l : lref) : bool :=
  match cur (ss s) with Some c => Nat.eqb c l | None => false end.
(** triggerEvent as one step, SafetyModel.v. *)
Definition trig (e : evid) (priv : bool) (s : st) : outcome st :=
  omap (fun x => w_ss x s) (triggerEvent H (ss s) e priv).

(** SignalChecker.hpp limitsExceeded: not strictly between the limits, true for NaN. *)
Definition exceeded (v : option Z) : bool :=
  match v with None => true | Some x => negb ((lower <? x) && (x <? upper)) end.

(** I.hpp 60-71 with the limits of the type double, which are never reached. *)
Definition integrated (s : st) (en : bool) : option Z :=
  let dt := if ifirst s then 0 else src s - iprevt s in
  match iprev s with None => None | Some x => Some (if en then x + dt else x) end.

(** One step of the time domain. *)
Definition td (s : st) : outcome st :=
  match tp s with
  | TC => Ok (tgo TI0 (w_src (clk s) s))
  | TI0 => Ok (tgo (TI1 (level_is s slRamp)) s)
  | TI1 en => Ok (tgo (TI2 (integrated s en) (src s)) (w_first false s))
  | TI2 v t => Ok (tgo TK0 (w_int v t s))
  | TK0 => Ok (tgo (if negb (fired s) && exceeded (iout s) then TK1 else TC) s)
  | TK1 => Ok (tgo (if level_is s slRamp then TK2 else TC) s)
  | TK2 => omap (tgo TK3) (trig evReset false s)
  | TK3 => Ok (tgo TC (w_fired true s))
  end.

(** The checker is inside run() with its mutex locked. *)
Definition held (p : tpc) : bool := match p with TK1 | TK2 | TK3 => true | _ => false end.

(** SystemTest3.cpp 57: n * 0.01 > 3, in binary64 300 * 0.01 is 3. *)
Definition long_enough (n : Z) : bool := 300 <? n.

(** One step of the safety system; at SReset it waits for the mutex of the checker. *)
Definition safe (s : st) : outcome st :=
  match sp s with
  | SIdle =>
    let x := adopt (ss s) in
    match cur x with
    | None => Ok (w_ss x s)
    | Some c =>
      let n := u32 (nact x c + 1) in
      Ok (sgo (if lact (H c) then SSet n else SEnd) (w_ss {| cur := cur x; nxt := nxt x; nact := upd (nact x) c n |} s))
    end
  | SSet n => Ok (sgo (if long_enough n then STrig else SEnd) (w_prev (Some 0) s))
  | STrig => omap (sgo SReset) (trig evUp true s)
  | SReset => Ok (if held (tp s) then s else sgo SEnd (w_fired false s))
  | SEnd => Ok (sgo SIdle (w_ss (adopt (ss s)) s))
  end.

(** [LTime d]: time goes on. *)
Inductive label := LTd | LSafe | LTime (d : positive).

Definition step (l : label) (s : st) : outcome st :=
  match l with
  | LTd => td s
  | LSafe => safe s
  | LTime d => Ok (w_clk (clk s + Zpos d) s)
  end.

Fixpoint steps (ls : list label) (s : st) : outcome st :=
  match ls with [] => Ok s | l :: ls => bind (step l s) (steps ls) end.

(** SystemTest3.cpp 80-86, I.hpp 34-37, SignalChecker.hpp 57-65: before the threads start. *)
Definition start (s0 : sys) (t : Z) : st :=
  {| ss := s0; clk := t; src := 0; ifirst := true; iprev := None; iprevt := 0; iout := None; fired := false; tp := TC; sp := SIdle |}.
Definition initial (s : st) : Prop := exists n0 s0 t, setProperties test_props n0 = Ok (Some s0) /\ 0 <= t /\ s = start s0 t.
