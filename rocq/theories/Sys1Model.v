(** The program examples/system/SystemTest1.cpp: the time domain thread with its blocks and the safety system with its level
    actions, interleaved in any order; each label is one access to data shared by the threads.
    Values are exact, in units of 5e-10: the gain gives 10 * 0.25 = 2.5 per second, that is 5 units per nanosecond. *)
From Verif Require Import Prelude SafetyModel.
Local Open Scope Z_scope.

(** SystemTest1.cpp 84-87 and 90-93: the levels; 80-83: the events. *)
Definition slEmergency : lref := 0%nat.
Definition slInitializing : lref := 1%nat.
Definition slRunning : lref := 2%nat.
Definition slStopped : lref := 3%nat.
Definition evStart : evid := 0.
Definition evStop : evid := 1.
Definition evRestart : evid := 2.
Definition evEmergency : evid := 3.

(** SafetyLevel.cpp: new levels; all but running get an action (SystemTest1.cpp 102-121). *)
Definition heap0 : heap := fun l => {| lid := 0; ltrans := []; lin := []; lout := []; lact := negb (Nat.eqb l slRunning) |}.

(** SystemTest1.cpp 90-99 and 124, in the order of the calls. *)
Definition test_props : props :=
  let p := {| pheap := heap0; plevels := []; pcount := 0; pentry := None; pcritIn := []; pcritOut := [] |} in
  let p := addLevel (addLevel (addLevel (addLevel p slEmergency) slInitializing) slRunning) slStopped in
  let p := addEventToLevel p slInitializing evStart slRunning true in
  let p := addEventToLevel p slRunning evStop slStopped false in
  let p := addEventToLevel p slStopped evRestart slRunning true in
  let p := addEventToLevelAndAbove p slInitializing evEmergency slEmergency false in
  {| pheap := pheap p; plevels := plevels p; pcount := pcount p; pentry := Some slInitializing;
     pcritIn := pcritIn p; pcritOut := pcritOut p |}.
Definition H : heap := pheap test_props.

(** 0.01 s, 1 s: in nanoseconds; 20, 0.1 and -1.5 in units of 5e-10 (SystemTest1.cpp 49-53, period 21). *)
Definition switchLevel : Z := 40000000000.
Definition delta : Z := 200000000.
Definition c2 : Z := -3000000000.
Definition slope : Z := 5.

(** Where the time domain thread is: TimeDomain.cpp 25-40 with the blocks in the order of SystemTest1.cpp 57-62. *)
Inductive tpc :=
| TIdle                       (* TimeDomain.cpp 26 *)
| TSrc                        (* Constant.hpp 49-53 twice, Gain.hpp 107-142 *)
| TInt                        (* I.hpp 57-71: reads of the input and of prev *)
| TIntW (v t : Z)             (* I.hpp 72-74: out and prev are written *)
| TSw                         (* Switch.hpp 58: val *)
| TSwC (v : option Z)         (* 59-66: conditions, switchToInput *)
| TSwS                        (* 67: switched = true *)
| TSwA                        (* 68: armed = false *)
| TSwE                        (* 69-71: triggerEvent *)
| TSwO                        (* 75-76: output *)
| TPer                        (* PeripheralOutput.hpp 46-58 *)
| TCatch.                     (* TimeDomain.cpp 34-38: NaNOutputFault *)

(** Where the safety system is: SafetySystem.cpp 81-123 with the level actions of SystemTest1.cpp 102-121.
    [n]: getNofActivations() as read by the action. *)
Inductive spc :=
| SIdle                       (* SafetySystem.cpp 83-88 *)
| SEmer (n : Z)               (* 102-104 *)
| SInit (n : Z)               (* 106-108: td.stop() and the condition *)
| SInitT                      (* 109 *)
| SInitS                      (* 110: td.start() *)
| SStop (n : Z)               (* 115 *)
| SSw                         (* 116: switchToInput(0) *)
| SSet                        (* 117: setInitCondition(0) *)
| SArm1 | SArm2               (* 118: arm(), Switch.hpp 153-156 *)
| SStopT                      (* 119 *)
| SEnd.                       (* SafetySystem.cpp 118 *)

(** [ss] safety system; [tdrun] TimeDomain::running; [clk] System::getTimeNs; [src] the time stamp of the outputs of the
    constants and the gain (None: not yet run); [ifirst], [iprev], [iprevt], [iout] the integrator; [sel] the position of the
    switch (true: input 1), [armed], [switched]; [sout] its output; [writes] the values given to the output "out" (newest
    first; None: its safe value). *)
Record st := {
  ss : sys; tdrun : bool; clk : Z; src : option Z;
  ifirst : bool; iprev : Z; iprevt : Z; iout : option Z;
  sel : bool; armed : bool; switched : bool; sout : option Z;
  writes : list (option Z); tp : tpc; sp : spc }.

Definition w_ss x s := {| ss := x; tdrun := tdrun s; clk := clk s; src := src s; ifirst := ifirst s; iprev := iprev s;
  iprevt := iprevt s; iout := iout s; sel := sel s; armed := armed s; switched := switched s; sout := sout s;
  writes := writes s; tp := tp s; sp := sp s |}.
Definition w_td x s := {| ss := ss s; tdrun := x; clk := clk s; src := src s; ifirst := ifirst s; iprev := iprev s;
  iprevt := iprevt s; iout := iout s; sel := sel s; armed := armed s; switched := switched s; sout := sout s;
  writes := writes s; tp := tp s; sp := sp s |}.
Definition w_src x s := {| ss := ss s; tdrun := tdrun s; clk := x; src := Some x; ifirst := ifirst s; iprev := iprev s;
  iprevt := iprevt s; iout := iout s; sel := sel s; armed := armed s; switched := switched s; sout := sout s;
  writes := writes s; tp := tp s; sp := sp s |}.
Definition w_first s := {| ss := ss s; tdrun := tdrun s; clk := clk s; src := src s; ifirst := false; iprev := iprev s;
  iprevt := iprevt s; iout := iout s; sel := sel s; armed := armed s; switched := switched s; sout := sout s;
  writes := writes s; tp := tp s; sp := sp s |}.
Definition w_int v t s := {| ss := ss s; tdrun := tdrun s; clk := clk s; src := src s; ifirst := ifirst s; iprev := v;
  iprevt := t; iout := Some v; sel := sel s; armed := armed s; switched := switched s; sout := sout s;
  writes := writes s; tp := tp s; sp := sp s |}.
Definition w_prev v s := {| ss := ss s; tdrun := tdrun s; clk := clk s; src := src s; ifirst := ifirst s; iprev := v;
  iprevt := iprevt s; iout := iout s; sel := sel s; armed := armed s; switched := switched s; sout := sout s;
  writes := writes s; tp := tp s; sp := sp s |}.
Definition w_sel x s := {| ss := ss s; tdrun := tdrun s; clk := clk s; src := src s; ifirst := ifirst s; iprev := iprev s;
  iprevt := iprevt s; iout := iout s; sel := x; armed := armed s; switched := switched s; sout := sout s;
  writes := writes s; tp := tp s; sp := sp s |}.
Definition w_armed x s := {| ss := ss s; tdrun := tdrun s; clk := clk s; src := src s; ifirst := ifirst s; iprev := iprev s;
  iprevt := iprevt s; iout := iout s; sel := sel s; armed := x; switched := switched s; sout := sout s;
  writes := writes s; tp := tp s; sp := sp s |}.
Definition w_switched x s := {| ss := ss s; tdrun := tdrun s; clk := clk s; src := src s; ifirst := ifirst s;
  iprev := iprev s; iprevt := iprevt s; iout := iout s; sel := sel s; armed := armed s; switched := x; sout := sout s;
  writes := writes s; tp := tp s; sp := sp s |}.
Definition w_sout x s := {| ss := ss s; tdrun := tdrun s; clk := clk s; src := src s; ifirst := ifirst s; iprev := iprev s;
  iprevt := iprevt s; iout := iout s; sel := sel s; armed := armed s; switched := switched s; sout := x;
  writes := writes s; tp := tp s; sp := sp s |}.
Definition w_write x s := {| ss := ss s; tdrun := tdrun s; clk := clk s; src := src s; ifirst := ifirst s; iprev := iprev s;
  iprevt := iprevt s; iout := iout s; sel := sel s; armed := armed s; switched := switched s; sout := sout s;
  writes := x :: writes s; tp := tp s; sp := sp s |}.
Definition tgo x s := {| ss := ss s; tdrun := tdrun s; clk := clk s; src := src s; ifirst := ifirst s; iprev := iprev s;
  iprevt := iprevt s; iout := iout s; sel := sel s; armed := armed s; switched := switched s; sout := sout s;
  writes := writes s; tp := x; sp := sp s |}.
Definition sgo x s := {| ss := ss s; tdrun := tdrun s; clk := clk s; src := src s; ifirst := ifirst s; iprev := iprev s;
  iprevt := iprevt s; iout := iout s; sel := sel s; armed := armed s; switched := switched s; sout := sout s;
  writes := writes s; tp := tp s; sp := x |}.

(** triggerEvent as one step (SafetyRaceModel.v has its interior). *)
Definition trig (e : evid) (priv : bool) (s : st) : outcome st :=
  omap (fun x => w_ss x s) (triggerEvent H (ss s) e priv).

(** The signal at the selected input of the switch, SystemTest1.cpp 44-45. *)
Definition sw_in (s : st) : option Z :=
  if sel s then option_map (fun _ => c2) (src s) else iout s.

(** Switch.hpp 60; NaN compares false. *)
Definition near (v : option Z) : bool :=
  match v with Some x => (x <? switchLevel + delta) && (switchLevel - delta <? x) | None => false end.

(** One step of the time domain thread; [d]: nanoseconds since the last reading of the clock. *)
Definition td_step (d : N) (s : st) : outcome st :=
  match tp s with
  | TIdle => Ok (tgo (if tdrun s then TSrc else TIdle) s)
  | TSrc => Ok (tgo TInt (w_src (clk s + Z.of_N d) s))
  | TInt =>
    match src s with
    | None => Ok s (* not reached: the sources run before *)
    | Some t =>
      let dt := if ifirst s then 0 else t - iprevt s in
      Ok (tgo (TIntW (iprev s + slope * dt) t) (w_first s))
    end
  | TIntW v t => Ok (tgo TSw (w_int v t s))
  | TSw => Ok (tgo (TSwC (sw_in s)) s)
  | TSwC v => if armed s && negb (switched s) && near v then Ok (tgo TSwS (w_sel true s)) else Ok (tgo TSwO s)
  | TSwS => Ok (tgo TSwA (w_switched true s))
  | TSwA => Ok (tgo TSwE (w_armed false s))
  | TSwE => omap (tgo TSwO) (trig evStop false s)
  | TSwO => Ok (tgo TPer (w_sout (sw_in s) s))
  | TPer => Ok (tgo (match sout s with Some _ => TIdle | None => TCatch end) (w_write (sout s) s))
  | TCatch => omap (tgo TIdle) (trig evEmergency false s)
  end.

(** SystemTest1.cpp 108 and 115, nofActivations * 0.01 > 5 and > 3: 500 * 0.01 and 300 * 0.01 round to 5 and 3 in double. *)
Definition init_done (n : Z) : bool := 500 <? n.
Definition stop_done (n : Z) : bool := 300 <? n.

(** One step of the safety system. *)
Definition safe_step (s : st) : outcome st :=
  match sp s with
  | SIdle =>
    let x := adopt (ss s) in
    match cur x with
    | None => Ok (w_ss x s)
    | Some l =>
      let n := u32 (nact x l + 1) in
      Ok (sgo (match l with
               | 0%nat => SEmer n
               | 1%nat => SInit n
               | 3%nat => SStop n
               | _ => SEnd
               end)
              (w_ss {| cur := cur x; nxt := nxt x; nact := upd (nact x) l n |} s))
    end
  | SEmer n => Ok (sgo SEnd (if n =? 1 then w_td false s else s))
  | SInit n => Ok (sgo (if init_done n then SInitT else SEnd) (w_td false s))
  | SInitT => omap (sgo SInitS) (trig evStart true s)
  | SInitS => Ok (sgo SEnd (w_td true s))
  | SStop n => Ok (sgo (if stop_done n then SSw else SEnd) s)
  | SSw => Ok (sgo SSet (w_sel false s))
  | SSet => Ok (sgo SArm1 (w_prev 0 s))
  | SArm1 => Ok (sgo SArm2 (w_armed true s))
  | SArm2 => Ok (sgo SStopT (w_switched false s))
  | SStopT => omap (sgo SEnd) (trig evRestart true s)
  | SEnd => Ok (sgo SIdle (w_ss (adopt (ss s)) s))
  end.

(** [LTd d]: the time domain thread; [LSafe]: the safety system; [LEmergency]: someone triggers the public event. *)
Inductive label := LTd (d : N) | LSafe | LEmergency.

Definition step (l : label) (s : st) : outcome st :=
  match l with
  | LTd d => td_step d s
  | LSafe => safe_step s
  | LEmergency => trig evEmergency false s
  end.

Fixpoint steps (ls : list label) (s : st) : outcome st :=
  match ls with [] => Ok s | l :: ls => bind (step l s) (steps ls) end.

(** After the constructors, SystemTest1.cpp 25-66, 78-125 and 142-148; TimeDomain.hpp 126: running. *)
Definition start (t : N) (s0 : sys) : st :=
  {| ss := s0; tdrun := true; clk := Z.of_N t; src := None; ifirst := true; iprev := 0; iprevt := 0; iout := None;
     sel := false; armed := true; switched := false; sout := None; writes := []; tp := TIdle; sp := SIdle |}.
Definition initial (s : st) : Prop :=
  exists t n0 s0, setProperties test_props n0 = Ok (Some s0) /\ s = start t s0.
