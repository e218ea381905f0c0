(** The program examples/can/CANexample1.cpp: main thread with the safety system, sequencer thread, time domain and interrupt,
    interleaved in any order; each label is one access to shared data.  The bus accepts every frame; the vector of the constant is
    read and written as a whole; an interrupt during the construction of the static sequencer is left out. *)
From Verif Require Import Prelude.
Local Open Scope nat_scope.

(** CANexample1.cpp 68-72: the levels (the identifiers ascend in this order). *)
Inductive level := Shut | Init | Moving.

(** Set positions: CANexample1.cpp 38 and 104, 100, 102. *)
Inductive position := P0 | P1 | P2.

(** Where the main thread is: CANexample1.cpp 123-154; in the loop of Executor.cpp 364-372 with SafetySystem.cpp 81-123. *)
Inductive mpc :=
| M0       (* before line 134: there is no safety system *)
| M1       (* 134-138 *)
| M2       (* 138-149, Executor.cpp 244-276 *)
| A0       (* Executor.cpp 364: running? *)
| A1       (* SafetySystem.cpp 83 *)
| A2       (* 108-110: level action, CANexample1.cpp 74-75 *)
| A3       (* 118 *)
| M4       (* CANexample1.cpp 151: sequencer.wait *)
| M5.

(** Where the sequencer thread is: CANexample1.cpp 93-109. *)
Inductive spc := Q0 | Q95 | Q96 | Q98 | Q99 | Q100 | Q101 | Q102 | Q103 | Q104 | Q105 | QEnd.

(** A frame for the drives: the position, and whether the speed was set. *)
Definition frame := (position * bool)%type.

(** [cur], [next] of the safety system; [stopped]: Executor::stop was called; [running] Sequencer::running, false also means that
    the condition for abort is set; [pos] the constant, [out] its output; [spd], [sen]: speed set, sending enabled; [bus]: frames,
    newest first; [td]: the output of the constant is new; [hp]: the interrupt handler is between lines 119 and 120. *)
Record st := { mp : mpc; cur : level; next : level; stopped : bool; running : bool; sp : spc; pos : position; out : option position;
  spd : bool; sen : bool; bus : list (option frame); td : bool; hp : bool }.
Definition init : st := {| mp := M0; cur := Init; next := Init; stopped := false; running := true; sp := Q0; pos := P0; out := None;
  spd := false; sen := false; bus := []; td := false; hp := false |}.

Definition w_main p c s := {| mp := p; cur := c; next := next s; stopped := stopped s; running := running s; sp := sp s; pos := pos s;
  out := out s; spd := spd s; sen := sen s; bus := bus s; td := td s; hp := hp s |}.
Definition w_next n s := {| mp := mp s; cur := cur s; next := n; stopped := stopped s; running := running s; sp := sp s; pos := pos s;
  out := out s; spd := spd s; sen := sen s; bus := bus s; td := td s; hp := hp s |}.
Definition w_stop s := {| mp := mp s; cur := cur s; next := next s; stopped := true; running := running s; sp := sp s; pos := pos s;
  out := out s; spd := spd s; sen := sen s; bus := bus s; td := td s; hp := hp s |}.
Definition w_seq p x s := {| mp := mp s; cur := cur s; next := next s; stopped := stopped s; running := running s; sp := p; pos := x;
  out := out s; spd := spd s; sen := sen s; bus := bus s; td := td s; hp := hp s |}.
Definition w_send p a b s := {| mp := mp s; cur := cur s; next := next s; stopped := stopped s; running := running s; sp := p;
  pos := pos s; out := out s; spd := a; sen := b; bus := bus s; td := td s; hp := hp s |}.
Definition w_td o b d s := {| mp := mp s; cur := cur s; next := next s; stopped := stopped s; running := running s; sp := sp s;
  pos := pos s; out := o; spd := spd s; sen := sen s; bus := b; td := d; hp := hp s |}.
Definition w_int r h s := {| mp := mp s; cur := cur s; next := next s; stopped := stopped s; running := r; sp := sp s; pos := pos s;
  out := out s; spd := spd s; sen := sen s; bus := bus s; td := td s; hp := h |}.

(** CANexample1.cpp 71-72: where an event leads to. *)
Inductive event := EStart | EShut.
Definition dest (l : level) (e : event) : option level :=
  match l, e with Init, EStart => Some Moving | Moving, EShut => Some Shut | _, _ => None end.
Definition level_eqb (a b : level) : bool :=
  match a, b with Shut, Shut | Init, Init | Moving, Moving => true | _, _ => false end.
Definition id (l : level) : nat := match l with Shut => 0 | Init => 1 | Moving => 2 end.
(** SafetySystem.cpp 49-71. *)
Definition trigger (e : event) (s : st) : st :=
  match dest (cur s) e with
  | None => s
  | Some l => if level_eqb (next s) (cur s) then w_next l s else if id l <? id (next s) then w_next l s else s
  end.

(** The main thread. *)
Definition main (s : st) : st :=
  match mp s with
  | M0 => w_main M1 (cur s) s
  | M1 => w_main M2 (cur s) (w_seq Q95 (pos s) s)
  | M2 => w_main A0 (cur s) s
  | A0 => w_main (if stopped s then M4 else A1) (cur s) s
  | A1 => w_main A2 (next s) s
  | A2 => w_main A3 (cur s) (match cur s with Init => trigger EStart s | Shut => w_stop s | Moving => s end)
  | A3 => w_main A0 (next s) s
  | M4 => match sp s with QEnd => w_main M5 (cur s) s | _ => s end
  | M5 => s
  end.

(** The sequencer thread; [b]: the waiting time is over.  A wait ends at once when the condition for abort is set
    (BaseSequence.cpp 33-38 and 50-53); the action goes on (CANexample1.cpp 93-109). *)
Definition seq (b : bool) (s : st) : st :=
  let wait p := if b || negb (running s) then w_seq p (pos s) s else s in
  match sp s with
  | Q0 => s
  | Q95 => w_send Q96 true (sen s) s
  | Q96 => w_send Q98 (spd s) true s
  | Q98 => w_seq (if running s then Q99 else QEnd) (pos s) s
  | Q99 => w_seq (if level_eqb (cur s) Moving then Q100 else Q98) (pos s) s
  | Q100 => w_seq Q101 P1 s
  | Q101 => wait Q102
  | Q102 => w_seq Q103 P2 s
  | Q103 => wait Q104
  | Q104 => w_seq Q105 P0 s
  | Q105 => wait Q98
  | QEnd => s
  end.

(** The threads of the executor run while it is in its loop, and are joined before line 151. *)
Definition in_loop (p : mpc) : bool := match p with A0 | A1 | A2 | A3 => true | _ => false end.
(** The time domain, CANexample1.cpp 46-48: Constant.hpp 49-53, then CANsend.hpp 54-69. *)
Definition domain (s : st) : st :=
  if in_loop (mp s) then
    if td s then w_td (out s) (if sen s then option_map (fun p => (p, spd s)) (out s) :: bus s else bus s) false s
    else w_td (Some (pos s)) (bus s) true s
  else s.

(** [LInt], [LExit]: lines 119 and 120 of the interrupt handler (SafetySystem.cpp 125-128: nothing without a safety system). *)
Inductive label := LMain | LSeq (b : bool) | LTd | LInt | LExit.
Definition step (l : label) (s : st) : st :=
  match l with
  | LMain => main s
  | LSeq b => seq b s
  | LTd => domain s
  | LInt => if hp s then s else w_int false true s
  | LExit => if hp s then w_int (running s) false (match mp s with M0 => s | _ => trigger EShut s end) else s
  end.
Fixpoint steps (ls : list label) (s : st) : st := match ls with [] => s | l :: r => steps r (step l s) end.
