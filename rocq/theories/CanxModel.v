(** The program examples/can/CANexample2.hpp and CANexample2.cpp: sequencer thread, safety system, time domain and signal
    handler, interleaved in any order; each label is one access to shared data.
    The bus accepts every frame; a call of the library DS402 is one frame; the receiving block only has its flag. *)
From Verif Require Import Prelude SafetyModel.
Local Open Scope Z_scope.

(** CANexample2.hpp 69-72 and 85-86: the levels and events. *)
Definition slInit : lref := 0%nat.
Definition slReady : lref := 1%nat.
Definition slMoving : lref := 2%nat.
Definition slStop : lref := 3%nat.
Definition evInitDone : evid := 0.
Definition evStartMoving : evid := 1.
Definition evShutDown : evid := 2.

(** SafetyLevel.cpp: new levels, none gets an action. *)
Definition heap0 : heap := fun _ => {| lid := 0; ltrans := []; lin := []; lout := []; lact := false |}.

(** CANexample2.hpp 69-78, in the order of the calls. *)
Definition can_props : props :=
  let p := {| pheap := heap0; plevels := []; pcount := 0; pentry := None; pcritIn := []; pcritOut := [] |} in
  let p := addLevel (addLevel (addLevel (addLevel p slInit) slReady) slMoving) slStop in
  let p := addEventToLevel p slInit evInitDone slReady false in
  let p := addEventToLevel p slReady evStartMoving slMoving false in
  let p := addEventToLevel p slReady evShutDown slStop false in
  let p := addEventToLevel p slMoving evShutDown slStop false in
  {| pheap := pheap p; plevels := plevels p; pcount := pcount p; pentry := Some slInit;
     pcritIn := pcritIn p; pcritOut := pcritOut p |}.
Definition H : heap := pheap can_props.

(** Frames on the bus: a transfer of the configuration, a network command, the sync frame, process data with the velocity. *)
Inductive frame := FSdo | FNmt (start : bool) | FSync | FPdo (node : nat) (v : Z).

(** Where the time domain is: blocks in the order of CANexample2.hpp 50-53. *)
Inductive tpc :=
| TC0 | TC1                   (* Constant.hpp 49-53 *)
| TSend                       (* CANopenSend.hpp 76: enabled *)
| TSync                       (* 78 *)
| TP0 | TP1.                  (* 80-105, the entries of CANexample2.hpp 40-41 *)

(** Where the sequencer thread is: MainSequence::action (CANexample2.hpp 205-220) with the sequences it calls.
    [n]: frames still to be sent; [v]: the local variable vel of line 148. *)
Inductive pc :=
| PTop                        (* CANexample2.hpp 206 and 207 *)
| PI0                         (* 208, and 95: network command *)
| PI1 (n : nat)               (* 97-117: 16 times configure, 4 calls *)
| PI2                         (* 119 *)
| PI3 | PI4                   (* 122, 123 *)
| PI5 (n : nat)               (* 125-128 *)
| PI6                         (* 130 *)
| PRd2                        (* 209 *)
| PWaitR                      (* 210 *)
| PTrig                       (* 211 *)
| PRd3                        (* 212 *)
| PMv (v : Z)                 (* 149: Sequencer::running *)
| PMvL (v : Z)                (* 149: the level *)
| PMv0 (v : Z) | PMv1 (v : Z) (* 150, 151 *)
| PMvW (v : Z)                (* 152-156 *)
| PRd4                        (* 214 *)
| PS0 | PS1                   (* 176, 177 *)
| PS2                         (* 178 *)
| PS3 (n : nat)               (* 180-183 *)
| PS4                         (* 184 *)
| PS5 | PS6                   (* 185, 186 *)
| PWaitEnd                    (* 217 *)
| PEnd.

(** [ss] safety system; [stopped] Executor::stop was called; [running] Sequencer::running, false also means that the
    conditions for abort are set; [v0], [v1], [o0], [o1] value and output of the constants; [sen], [ren] the flags of the
    sending and the receiving block; [bus] the frames, newest first. *)
Record st := {
  ss : sys; stopped : bool; running : bool; v0 : Z; v1 : Z; o0 : option Z; o1 : option Z;
  sen : bool; ren : bool; bus : list frame; tp : tpc; at_ : pc }.

Definition w_ss x s := {| ss := x; stopped := stopped s; running := running s; v0 := v0 s; v1 := v1 s; o0 := o0 s;
  o1 := o1 s; sen := sen s; ren := ren s; bus := bus s; tp := tp s; at_ := at_ s |}.
Definition w_stop s := {| ss := ss s; stopped := true; running := running s; v0 := v0 s; v1 := v1 s; o0 := o0 s;
  o1 := o1 s; sen := sen s; ren := ren s; bus := bus s; tp := tp s; at_ := at_ s |}.
Definition w_run x s := {| ss := ss s; stopped := stopped s; running := x; v0 := v0 s; v1 := v1 s; o0 := o0 s;
  o1 := o1 s; sen := sen s; ren := ren s; bus := bus s; tp := tp s; at_ := at_ s |}.
Definition w_v0 x s := {| ss := ss s; stopped := stopped s; running := running s; v0 := x; v1 := v1 s; o0 := o0 s;
  o1 := o1 s; sen := sen s; ren := ren s; bus := bus s; tp := tp s; at_ := at_ s |}.
Definition w_v1 x s := {| ss := ss s; stopped := stopped s; running := running s; v0 := v0 s; v1 := x; o0 := o0 s;
  o1 := o1 s; sen := sen s; ren := ren s; bus := bus s; tp := tp s; at_ := at_ s |}.
Definition w_o0 x s := {| ss := ss s; stopped := stopped s; running := running s; v0 := v0 s; v1 := v1 s; o0 := x;
  o1 := o1 s; sen := sen s; ren := ren s; bus := bus s; tp := tp s; at_ := at_ s |}.
Definition w_o1 x s := {| ss := ss s; stopped := stopped s; running := running s; v0 := v0 s; v1 := v1 s; o0 := o0 s;
  o1 := x; sen := sen s; ren := ren s; bus := bus s; tp := tp s; at_ := at_ s |}.
Definition w_sen x s := {| ss := ss s; stopped := stopped s; running := running s; v0 := v0 s; v1 := v1 s; o0 := o0 s;
  o1 := o1 s; sen := x; ren := ren s; bus := bus s; tp := tp s; at_ := at_ s |}.
Definition w_ren x s := {| ss := ss s; stopped := stopped s; running := running s; v0 := v0 s; v1 := v1 s; o0 := o0 s;
  o1 := o1 s; sen := sen s; ren := x; bus := bus s; tp := tp s; at_ := at_ s |}.
Definition put x s := {| ss := ss s; stopped := stopped s; running := running s; v0 := v0 s; v1 := v1 s; o0 := o0 s;
  o1 := o1 s; sen := sen s; ren := ren s; bus := x :: bus s; tp := tp s; at_ := at_ s |}.
Definition tgo x s := {| ss := ss s; stopped := stopped s; running := running s; v0 := v0 s; v1 := v1 s; o0 := o0 s;
  o1 := o1 s; sen := sen s; ren := ren s; bus := bus s; tp := x; at_ := at_ s |}.
Definition goto x s := {| ss := ss s; stopped := stopped s; running := running s; v0 := v0 s; v1 := v1 s; o0 := o0 s;
  o1 := o1 s; sen := sen s; ren := ren s; bus := bus s; tp := tp s; at_ := x |}.

(** SafetySystem::getCurrentLevel compared with a level. *)
Definition level_is (s : st) (l : lref) : bool :=
  match cur (ss s) with Some c => Nat.eqb c l | None => false end.
(** triggerEvent as one step, SafetyModel.v. *)
Definition trig (e : evid) (priv : bool) (s : st) : outcome st :=
  omap (fun x => w_ss x s) (triggerEvent H (ss s) e priv).

(** CANopenSend.hpp 92-93 with the scale of CANexample2.hpp 43-45: the conversion of the product from double to uint32_t is
    undefined outside the range of uint32_t; the output of a constant that has not run is NaN. *)
Definition scaled (v : option Z) (k : Z) : outcome Z :=
  match v with
  | None => UB
  | Some x => if (0 <=? x * k) && (x * k <? 4294967296) then Ok (x * k) else UB
  end.

(** One step of the time domain. *)
Definition td (s : st) : outcome st :=
  match tp s with
  | TC0 => Ok (tgo TC1 (w_o0 (Some (v0 s)) s))
  | TC1 => Ok (tgo TSend (w_o1 (Some (v1 s)) s))
  | TSend => Ok (tgo (if sen s then TSync else TC0) s)
  | TSync => Ok (tgo TP0 (put FSync s))
  | TP0 => omap (fun x => tgo TP1 (put (FPdo 1 x) s)) (scaled (o0 s) 50)
  | TP1 => omap (fun x => tgo TC0 (put (FPdo 2 x) s)) (scaled (o1 s) 200)
  end.

(** One step of the sequencer thread; [b]: the waiting time is over.  A sequence called when [running] is false does not run
    its action (BaseSequence.cpp 33-38, the monitor for abort fires). *)
Definition seq (b : bool) (s : st) : outcome st :=
  match at_ s with
  | PTop => Ok (goto (if running s then if level_is s slInit then PI0 else PRd2 else PEnd) s)
  | PI0 => Ok (goto (PI1 20) (put (FNmt false) s))
  | PI1 (S n) => Ok (goto (PI1 n) (put FSdo s))
  | PI1 O => Ok (goto PI2 s)
  | PI2 => Ok (goto PI3 (put (FNmt true) s))
  | PI3 => Ok (goto PI4 (w_sen true s))
  | PI4 => Ok (goto (PI5 4) (w_ren true s))
  | PI5 (S n) => Ok (goto (PI5 n) (put FSdo s))
  | PI5 O => Ok (goto PI6 s)
  | PI6 => omap (goto PWaitEnd) (trig evInitDone false s)
  | PRd2 => Ok (goto (if level_is s slReady then PWaitR else PRd3) s)
  | PWaitR => Ok (goto (if b then PTrig else PWaitR) s)
  | PTrig => omap (goto PWaitEnd) (trig evStartMoving false s)
  | PRd3 => Ok (goto (if level_is s slMoving then PMv 2 else PRd4) s)
  | PMv v => Ok (goto (if running s then PMvL v else PWaitEnd) s)
  | PMvL v => Ok (goto (if level_is s slMoving then PMv0 v else PWaitEnd) s)
  | PMv0 v => Ok (goto (PMv1 v) (w_v0 v s))
  | PMv1 v => Ok (goto (PMvW v) (w_v1 v s))
  | PMvW v => Ok (goto (if b then PMv (if v =? 2 then u32 (-1) else 2) else PMvW v) s)
  | PRd4 => Ok (goto (if level_is s slStop then PS0 else PWaitEnd) s)
  | PS0 => Ok (goto PS1 (w_ren false s))
  | PS1 => Ok (goto PS2 (w_sen false s))
  | PS2 => Ok (goto (PS3 4) (put (FNmt false) s))
  | PS3 (S n) => Ok (goto (PS3 n) (put FSdo s))
  | PS3 O => Ok (goto PS4 s)
  | PS4 => Ok (goto (if b then PS5 else PS4) s)
  | PS5 => Ok (goto PS6 (w_run false s))
  | PS6 => Ok (goto PWaitEnd (w_stop s))
  | PWaitEnd => Ok (goto (if b || negb (running s) then PTop else PWaitEnd) s)
  | PEnd => Ok s
  end.

(** [LTd]: the time domain; [LSafe]: SafetySystem::run; [LExit]: SafetySystem::exitHandler with CANexample2.hpp 80-82;
    [LSeq b]: the sequencer thread. *)
Inductive label := LTd | LSafe | LExit | LSeq (b : bool).

Definition step (l : label) (s : st) : outcome st :=
  match l with
  | LTd => td s
  | LSafe => omap (fun r => w_ss (fst r) s) (run H (ss s) (fun _ => VBool false) [])
  | LExit => trig evShutDown true s
  | LSeq b => seq b s
  end.

Fixpoint steps (ls : list label) (s : st) : outcome st :=
  match ls with [] => Ok s | l :: ls => bind (step l s) (steps ls) end.

(** CANexample2.hpp 29-35 and 54, CANexample2.cpp 28-34: after mainSeq(). *)
Definition start (s0 : sys) : st :=
  {| ss := s0; stopped := false; running := true; v0 := 0; v1 := 0; o0 := None; o1 := None; sen := false; ren := false;
     bus := []; tp := TC0; at_ := PTop |}.
Definition initial (s : st) : Prop := exists n0 s0, setProperties can_props n0 = Ok (Some s0) /\ s = start s0.
