(** The mock robot of examples/system: control system, safety properties, sequencer and signal handler together.
    MockRobotControlSystem.hpp, MockRobotSafetyProperties.hpp, MockRobotSequencer.hpp, MockRobotExample.cpp.
    The executor thread, the sequencer thread and the signal handler interleave in any order; each label is one access
    to shared data.  Rational numbers for double.  The safety system is the one of SafetyModel.v. *)
From Coq Require Import QArith.
From Verif Require Import Prelude SafetyModel.
Local Open Scope Z_scope.

(** MockRobotSafetyProperties.hpp 43-46: the levels, and 48-50 the events. *)
Definition slOff : lref := 0%nat.
Definition slHoming : lref := 1%nat.
Definition slReady : lref := 2%nat.
Definition slMoving : lref := 3%nat.
Definition evAbort : evid := 0.
Definition evHomingDone : evid := 1.
Definition evStartMoving : evid := 2.

(** SafetyLevel.cpp: a new level without events and actions; line 33 of MockRobotSafetyProperties.hpp gives slOff an action. *)
Definition level0 (a : bool) : level := {| lid := 0; ltrans := []; lin := []; lout := []; lact := a |}.
Definition heap0 : heap := fun l => level0 (Nat.eqb l slOff).

(** MockRobotSafetyProperties.hpp 24-35, in the order of the calls. *)
Definition robot_props : props :=
  let p := {| pheap := heap0; plevels := []; pcount := 0; pentry := None; pcritIn := []; pcritOut := [] |} in
  let p := addLevel (addLevel (addLevel (addLevel p slOff) slHoming) slReady) slMoving in
  let p := addEventToLevel p slHoming evHomingDone slReady false in
  let p := addEventToLevel p slReady evStartMoving slMoving false in
  let p := addEventToLevelAndAbove p slHoming evAbort slOff true in
  {| pheap := pheap p; plevels := plevels p; pcount := pcount p; pentry := Some slHoming;
     pcritIn := pcritIn p; pcritOut := pcritOut p |}.
Definition H : heap := pheap robot_props.

Definition v2 : Type := (Q * Q)%type.

(** Where the sequencer thread is: MainSequence::action (MockRobotSequencer.hpp 86-100) with the sequences and steps it calls.
    [f]: a monitor has fired in this run of the sequence (BaseSequence.cpp 50-54: the exit condition is still evaluated).
    [v], [w]: the element of the integrator read (None: NaN). *)
Inductive pc :=
| PTop                                   (* 87, while, and 88 *)
| PHom                                   (* 89, start of the homing sequence *)
| PHomAct                                (* 61-64 *)
| PHomMon                                (* BaseSequence.cpp 51: checkMonitors *)
| PHomV0 (f : bool)                      (* 66, first element *)
| PHomV1 (f : bool) (v : option Q)       (* 66, second element *)
| PHomX (f : bool) (v w : option Q)      (* 68 *)
| PHomY (f : bool) (v w : option Q)      (* 69 *)
| PHomT (f : bool) (v w : option Q)      (* 70-71 *)
| PRead2                                 (* 90 *)
| PWaitR                                 (* 91, wait(2) *)
| PSw                                    (* 92 *)
| PTrig                                  (* 93 *)
| PRead3                                 (* 94 *)
| PUD                                    (* 95, start of the sequence *)
| PUDLoop                                (* 47 *)
| PUp | PUpW                             (* 48 with 19-24 *)
| PDn | PDnW                             (* 49 with 31-36 *)
| PWaitEnd                               (* 97, wait(0.1) *)
| PEnd.

(** The state.  [ss] safety system, [stopped] Executor::stop was called; [spv] value and [spo], [spt] output and time stamp of
    the constant; [ifirst], [iprev], [iprevt], [iout] the integrator; [pfin], [plast], [ppos] the path planner;
    [sel], [out] the switch; [clk] System::getTimeNs; [ab] abort conditions of the sequences (0 none set, 1 being set,
    2 all set); [running] Sequencer::running. *)
Record st := {
  ss : sys; stopped : bool;
  spv : v2; spo : option v2; spt : Z;
  ifirst : bool; iprev : v2; iprevt : Z; iout : option v2;
  pfin : bool; plast : v2; ppos : option v2;
  sel : bool; out : option v2;
  clk : Z; ab : nat; running : bool; at_ : pc }.

Definition w_ss x s := {| ss := x; stopped := stopped s; spv := spv s; spo := spo s; spt := spt s; ifirst := ifirst s;
  iprev := iprev s; iprevt := iprevt s; iout := iout s; pfin := pfin s; plast := plast s; ppos := ppos s; sel := sel s;
  out := out s; clk := clk s; ab := ab s; running := running s; at_ := at_ s |}.
Definition w_stop x s := {| ss := ss s; stopped := x; spv := spv s; spo := spo s; spt := spt s; ifirst := ifirst s;
  iprev := iprev s; iprevt := iprevt s; iout := iout s; pfin := pfin s; plast := plast s; ppos := ppos s; sel := sel s;
  out := out s; clk := clk s; ab := ab s; running := running s; at_ := at_ s |}.
Definition w_spv x s := {| ss := ss s; stopped := stopped s; spv := x; spo := spo s; spt := spt s; ifirst := ifirst s;
  iprev := iprev s; iprevt := iprevt s; iout := iout s; pfin := pfin s; plast := plast s; ppos := ppos s; sel := sel s;
  out := out s; clk := clk s; ab := ab s; running := running s; at_ := at_ s |}.
Definition w_const c s := {| ss := ss s; stopped := stopped s; spv := spv s; spo := Some (spv s); spt := c; ifirst := ifirst s;
  iprev := iprev s; iprevt := iprevt s; iout := iout s; pfin := pfin s; plast := plast s; ppos := ppos s; sel := sel s;
  out := out s; clk := c; ab := ab s; running := running s; at_ := at_ s |}.
Definition w_int x t s := {| ss := ss s; stopped := stopped s; spv := spv s; spo := spo s; spt := spt s; ifirst := false;
  iprev := x; iprevt := t; iout := Some x; pfin := pfin s; plast := plast s; ppos := ppos s; sel := sel s;
  out := out s; clk := clk s; ab := ab s; running := running s; at_ := at_ s |}.
Definition w_pp f l p s := {| ss := ss s; stopped := stopped s; spv := spv s; spo := spo s; spt := spt s; ifirst := ifirst s;
  iprev := iprev s; iprevt := iprevt s; iout := iout s; pfin := f; plast := l; ppos := p; sel := sel s;
  out := out s; clk := clk s; ab := ab s; running := running s; at_ := at_ s |}.
Definition w_sel x s := {| ss := ss s; stopped := stopped s; spv := spv s; spo := spo s; spt := spt s; ifirst := ifirst s;
  iprev := iprev s; iprevt := iprevt s; iout := iout s; pfin := pfin s; plast := plast s; ppos := ppos s; sel := x;
  out := out s; clk := clk s; ab := ab s; running := running s; at_ := at_ s |}.
Definition w_out x s := {| ss := ss s; stopped := stopped s; spv := spv s; spo := spo s; spt := spt s; ifirst := ifirst s;
  iprev := iprev s; iprevt := iprevt s; iout := iout s; pfin := pfin s; plast := plast s; ppos := ppos s; sel := sel s;
  out := x; clk := clk s; ab := ab s; running := running s; at_ := at_ s |}.
Definition w_ab x s := {| ss := ss s; stopped := stopped s; spv := spv s; spo := spo s; spt := spt s; ifirst := ifirst s;
  iprev := iprev s; iprevt := iprevt s; iout := iout s; pfin := pfin s; plast := plast s; ppos := ppos s; sel := sel s;
  out := out s; clk := clk s; ab := x; running := running s; at_ := at_ s |}.
Definition w_run x s := {| ss := ss s; stopped := stopped s; spv := spv s; spo := spo s; spt := spt s; ifirst := ifirst s;
  iprev := iprev s; iprevt := iprevt s; iout := iout s; pfin := pfin s; plast := plast s; ppos := ppos s; sel := sel s;
  out := out s; clk := clk s; ab := ab s; running := x; at_ := at_ s |}.
Definition goto x s := {| ss := ss s; stopped := stopped s; spv := spv s; spo := spo s; spt := spt s; ifirst := ifirst s;
  iprev := iprev s; iprevt := iprevt s; iout := iout s; pfin := pfin s; plast := plast s; ppos := ppos s; sel := sel s;
  out := out s; clk := clk s; ab := ab s; running := running s; at_ := x |}.

(** The labels.  [LConst d]: setpoint.run(), d nanoseconds after the last reading of the clock; [LInt]: i.run();
    [LPlan p f]: pp.run(), a planner that moves goes to any p and ends if f (any path planner); [LSwitch]: sw.run();
    [LSafe]: ss.run(); [LExit]: SafetySystem::exitHandler; [LAbort1], [LAbort2], [LAbort3]: Sequencer::abort, some
    conditions set, all set, running cleared; [LSeq b]: the sequencer thread, b decides about waiting times, about
    conditions being set meanwhile and about moves refused. *)
Inductive label :=
| LConst (d : N) | LInt | LPlan (p : v2) (f : bool) | LSwitch | LSafe
| LExit | LAbort1 | LAbort2 | LAbort3 | LSeq (b : bool).

(** I.hpp 53-75 for Matrix<2,1,double> with the limits of clearLimits (never met by rational numbers of this size:
    simplification), enabled, no active level: lines 67-71. *)
Definition integrate (prev vin : v2) (dt : Q) : v2 :=
  ((fst prev + fst vin * dt)%Q, (snd prev + snd vin * dt)%Q).
Definition seconds (ns : Z) : Q := (inject_Z ns / 1000000000)%Q.

Definition level_is (s : st) (l : lref) : bool :=
  match cur (ss s) with Some c => Nat.eqb c l | None => false end.

(** BaseSequence.cpp 86-146: a monitor for abort of the sequence or of a caller fires. *)
Definition fires (s : st) (b : bool) : bool := match ab s with O => false | 1%nat => b | _ => true end.

(** MockRobotSequencer.hpp 67-69: val[k] >= 1.0; NaN compares false. *)
Definition ge1 (v : option Q) : bool := match v with Some x => Qle_bool 1 x | None => false end.

(** triggerEvent through the public interface, SafetyModel.v. *)
Definition trig (e : evid) (priv : bool) (s : st) : outcome st :=
  omap (fun x => w_ss x s) (triggerEvent H (ss s) e priv).

(** One step of the sequencer thread. *)
Definition seq (b : bool) (s : st) : outcome st :=
  match at_ s with
  | PTop => Ok (goto (if running s then if level_is s slHoming then PHom else PRead2 else PEnd) s)
  | PHom => Ok (goto (if fires s b then PWaitEnd else PHomAct) s)
  | PHomAct => Ok (goto PHomMon (w_spv (1 # 10, 1 # 10)%Q s))
  | PHomMon => Ok (goto (PHomV0 (fires s b)) s)
  | PHomV0 f => Ok (goto (PHomV1 f (option_map fst (iout s))) s)
  | PHomV1 f v => Ok (goto (PHomX f v (option_map snd (iout s))) s)
  | PHomX f v w => Ok (goto (PHomY f v w) (if ge1 v then w_spv (0%Q, snd (spv s)) s else s))
  | PHomY f v w => Ok (goto (PHomT f v w) (if ge1 w then w_spv (fst (spv s), 0%Q) s else s))
  | PHomT f v w =>
    if ge1 v && ge1 w then omap (goto PWaitEnd) (trig evHomingDone false s)
    else Ok (goto (if f then PWaitEnd else PHomMon) s)
  | PRead2 => Ok (goto (if level_is s slReady then PWaitR else PRead3) s)
  | PWaitR => Ok (goto (if fires s b || b then PSw else PWaitR) s)
  | PSw => Ok (goto PTrig (w_sel true s))
  | PTrig => omap (goto PWaitEnd) (trig evStartMoving false s)
  | PRead3 => Ok (goto (if level_is s slMoving then PUD else PWaitEnd) s)
  | PUD => Ok (goto (if fires s b then PWaitEnd else PUDLoop) s)
  | PUDLoop => Ok (goto (if running s then PUp else PWaitEnd) s)
  | PUp => Ok (if fires s b then goto PDn s
               else goto PUpW (if pfin s then w_pp b (plast s) (ppos s) s else s))
  | PUpW => Ok (goto (if fires s b || pfin s then PDn else PUpW) s)
  | PDn => Ok (if fires s b then goto PUDLoop s
               else goto PDnW (if pfin s then w_pp b (plast s) (ppos s) s else s))
  | PDnW => Ok (goto (if fires s b || pfin s then PUDLoop else PDnW) s)
  | PWaitEnd => Ok (goto (if fires s b || b then PTop else PWaitEnd) s)
  | PEnd => Ok s
  end.

(** The level action of slOff (MockRobotSafetyProperties.hpp 33) ran in this cycle of the safety system. *)
Definition ran_off (es : list eff) : bool :=
  existsb (fun e => match e with EAct l _ => Nat.eqb l slOff | _ => false end) es.

Definition step (l : label) (s : st) : outcome st :=
  match l with
  | LConst d => Ok (w_const (clk s + Z.of_N d) s)
  | LInt =>
    match spo s with
    | None => Ok s (* the constant runs first in the time domain: MockRobotControlSystem.hpp 25-28 *)
    | Some v =>
      let dt := if ifirst s then 0%Q else seconds (spt s - iprevt s) in
      Ok (w_int (integrate (iprev s) v dt) (spt s) s)
    end
  | LPlan p f =>
    if pfin s then Ok (w_pp true (plast s) (Some (plast s)) s) else Ok (w_pp f p (Some p) s)
  | LSwitch => Ok (w_out (if sel s then ppos s else iout s) s)
  | LSafe =>
    omap (fun r => w_stop (stopped s || ran_off (snd r)) (w_ss (fst r) s))
      (run H (ss s) (fun _ => VBool false) [])
  | LExit => trig evAbort true s
  | LAbort1 => Ok (w_ab (Nat.max 1 (ab s)) s)
  | LAbort2 => Ok (w_ab 2 s)
  | LAbort3 => Ok (w_run false s)
  | LSeq b => seq b s
  end.

Fixpoint steps (ls : list label) (s : st) : outcome st :=
  match ls with [] => Ok s | l :: ls => bind (step l s) (steps ls) end.

(** MockRobotControlSystem.hpp 18-29 and MockRobotExample.cpp 35-45: after mainSeq(). The planner starts at 0
    (TrajectoryGenerator.hpp), its outputs are NaN. *)
Definition start (t : N) (s0 : sys) : st :=
  {| ss := s0; stopped := false; spv := (0, 0)%Q; spo := None; spt := 0; ifirst := true;
     iprev := (3 # 10, - (2 # 10))%Q; iprevt := 0; iout := None; pfin := true; plast := (0, 0)%Q; ppos := None;
     sel := false; out := None; clk := Z.of_N t; ab := O; running := true; at_ := PTop |}.
Definition initial (s : st) : Prop :=
  exists t n0 s0, setProperties robot_props n0 = Ok (Some s0) /\ s = start t s0.
