(** The program examples/system/SystemTest2.cpp: the safety system with its input, level and output actions, the periodic task
    p1 and the interrupt, interleaved in any order. *)
From Verif Require Import Prelude SafetyModel SafetyActionModel.
Local Open Scope Z_scope.

(** SystemTest2.cpp 48-52: the levels; 20-25: the events. *)
Definition slOff : lref := 0%nat.
Definition slShuttingDown : lref := 1%nat.
Definition slInitializing : lref := 2%nat.
Definition slInitialized : lref := 3%nat.
Definition slRunning : lref := 4%nat.
Definition evStartInit : evid := 0.
Definition evInitDone : evid := 1.
Definition evStartRun : evid := 2.
Definition evShutDown : evid := 3.
Definition evStopRun : evid := 4.
Definition evSwitchOff : evid := 5.

(** The input "in" (SystemTest2.cpp 39) and the output "out" (35). *)
Definition inp : nat := 0%nat.
Definition outp : nat := 0%nat.

(** SystemTest2.cpp 63-67: input actions. *)
Definition input_of (l : lref) : iaction :=
  match l with
  | 3%nat => check_action inp (VBool false) evStartRun
  | 4%nat => check_action inp (VBool true) evStopRun
  | _ => ignore_action inp
  end.
(** SystemTest2.cpp 63-88: actions of the levels; the level initializing has no level action. *)
Definition heap0 : heap := fun l => {| lid := 0; ltrans := []; lin := [Some (input_of l)];
  lout := [Some {| oa_output := outp; oa_id := l |}]; lact := negb (Nat.eqb l slInitializing) |}.

(** SystemTest2.cpp 36-40, 48-60 and 90, in the order of the calls. *)
Definition test_props : props :=
  let p := {| pheap := heap0; plevels := []; pcount := 0; pentry := None; pcritIn := [inp]; pcritOut := [outp] |} in
  let p := addLevel (addLevel (addLevel (addLevel (addLevel p slOff) slShuttingDown) slInitializing) slInitialized) slRunning in
  let p := addEventToLevel p slOff evStartInit slInitializing false in
  let p := addEventToLevel p slShuttingDown evSwitchOff slOff true in
  let p := addEventToLevel p slInitializing evInitDone slInitialized false in
  let p := addEventToLevel p slInitialized evStartRun slRunning false in
  let p := addEventToLevel p slRunning evStopRun slInitialized true in
  let p := addEventToLevelAndAbove p slInitializing evShutDown slShuttingDown false in
  {| pheap := pheap p; plevels := plevels p; pcount := pcount p; pentry := Some slOff;
     pcritIn := pcritIn p; pcritOut := pcritOut p |}.
Definition H : heap := pheap test_props.

(** Where the safety system is, SafetySystem.cpp 81-123. *)
Inductive spc :=
| SIdle                       (* 83-88 *)
| SIn                         (* 91-105 *)
| SAct                        (* 108-110 *)
| SOut                        (* 113-117 *)
| SEnd.                       (* 118 *)

(** [ss] safety system; [outT] the output "outTest"; [tog] value of the ToggleOutputAction; [cnt] the static variable count;
    [stopped] Executor::stop() has been called; [writes] the values given to "out" with the level, newest first. *)
Record st := { ss : sys; outT : bool; tog : bool; cnt : Z; stopped : bool; writes : list (lref * bool); sp : spc }.

Definition w_ss x s := {| ss := x; outT := outT s; tog := tog s; cnt := cnt s; stopped := stopped s; writes := writes s; sp := sp s |}.
Definition w_outT x s := {| ss := ss s; outT := x; tog := tog s; cnt := cnt s; stopped := stopped s; writes := writes s; sp := sp s |}.
Definition w_tog x s := {| ss := ss s; outT := outT s; tog := x; cnt := cnt s; stopped := stopped s; writes := writes s; sp := sp s |}.
Definition w_cnt x s := {| ss := ss s; outT := outT s; tog := tog s; cnt := x; stopped := stopped s; writes := writes s; sp := sp s |}.
Definition w_stop s := {| ss := ss s; outT := outT s; tog := tog s; cnt := cnt s; stopped := true; writes := writes s; sp := sp s |}.
Definition w_write l b s := {| ss := ss s; outT := outT s; tog := tog s; cnt := cnt s; stopped := stopped s;
  writes := (l, b) :: writes s; sp := sp s |}.
Definition sgo x s := {| ss := ss s; outT := outT s; tog := tog s; cnt := cnt s; stopped := stopped s; writes := writes s; sp := x |}.

(** triggerEvent as one step (SafetyRaceModel.v and SigModel.v have its interior). *)
Definition trig (e : evid) (priv : bool) (s : st) : outcome st :=
  omap (fun x => w_ss x s) (triggerEvent H (ss s) e priv).

(** SystemTest2.cpp 77-88: the level actions; lines 80 and 85: nofActivations > 5. *)
Definition level_action (l : lref) (s : st) : outcome st :=
  match l with
  | 0%nat => Ok (w_stop s)
  | 1%nat => trig evSwitchOff true s
  | 3%nat => Ok (if 5 <? nact (ss s) l then w_outT true s else s)
  | 4%nat => Ok (if 5 <? nact (ss s) l then w_outT false s else s)
  | _ => Ok s
  end.

(** SystemTest2.cpp 70-74 with OutputAction.hpp 31-57. *)
Definition output_action (l : lref) (s : st) : st :=
  if Nat.eqb l slRunning then w_tog (negb (tog s)) (w_write l (tog s) s) else w_write l false s.

(** One step of the safety system; [v]: the value of "in" if it is read.  After Executor::stop() there are no more cycles. *)
Definition safe (v : bool) (s : st) : outcome st :=
  match sp s with
  | SIdle =>
    if stopped s then Ok s else
    let x := adopt (ss s) in
    match cur x with
    | None => Ok (w_ss x s)
    | Some l => Ok (sgo SIn (w_ss {| cur := cur x; nxt := nxt x; nact := upd (nact x) l (u32 (nact x l + 1)) |} s))
    end
  | SIn =>
    match cur (ss s) with
    | None => Ok s
    | Some l => bind (checkInputs H (ss s) (fun _ => VBool v) (lin (H l))) (fun r => Ok (sgo SAct (w_ss (fst r) s)))
    end
  | SAct => match cur (ss s) with None => Ok s | Some l => omap (sgo SOut) (level_action l s) end
  | SOut => match cur (ss s) with None => Ok s | Some l => Ok (sgo SEnd (output_action l s)) end
  | SEnd => Ok (sgo SIdle (w_ss (adopt (ss s)) s))
  end.

(** SystemTest2.cpp 149-152: int count; overflow is undefined. *)
Definition p1 (s : st) : outcome st :=
  if cnt s =? 2147483647 then UB
  else
    let s' := w_cnt (cnt s + 1) s in
    if cnt s =? 5 then trig evInitDone false s' else Ok s'.

(** [LSafe v]: the safety system; [LP1]: a run of p1; [LInt]: Ctrl-C (SystemTest2.cpp 93, 123-125). *)
Inductive label := LSafe (v : bool) | LP1 | LInt.

Definition step (l : label) (s : st) : outcome st :=
  match l with
  | LSafe v => safe v s
  | LP1 => p1 s
  | LInt => trig evShutDown true s
  end.

Fixpoint steps (ls : list label) (s : st) : outcome st :=
  match ls with [] => Ok s | l :: ls => bind (step l s) (steps ls) end.

(** SystemTest2.cpp 44 and 140-143: after the event in main. *)
Definition initial (s : st) : Prop := exists n0 s0 s1,
  setProperties test_props n0 = Ok (Some s0) /\ triggerEvent H s0 evStartInit false = Ok s1 /\
  s = {| ss := s1; outT := false; tog := false; cnt := 0; stopped := false; writes := []; sp := SIdle |}.
