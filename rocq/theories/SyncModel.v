(** Configuration of the executor and its loops synchronised to ROS or EtherCAT.

    Source: /repo/src/core/Executor.cpp and /repo/includes/eeros/core/Executor.hpp.  Left out: logging (the model counts the
    error messages of [add] only), priorities, memory locking and the bodies of the tasks.  The loop with the system clock
    (361-372) is in TaskModel.v, the loop synchronised to a topic of ROS2 (345-357) in RosModel.v. *)
From Coq Require Import List ZArith Bool.
From Verif Require Import Prelude Num.
Import ListNotations.
Open Scope Z_scope.

(** ** Configuration *)
(** A periodic object of the program is a number; a monitor is a number. *)
Section Conf.
Context (N : num).
(** Executor.cpp:95-98.  [c_main]: the main task is a periodic of the program ([Some]) or one created by the executor ([None]).
    [c_mon]: monitors of the periodics of the program (Periodic.hpp:128).  [c_tasks]: copies of the periodics which
    were added, with the monitors they had. *)
Record conf := { c_period : N; c_main : option (option nat); c_mon : nat -> list nat; c_tasks : list (nat * list nat); c_errors : nat }.
Definition conf0 : conf :=
  {| c_period := nofZ N 0; c_main := None; c_mon := fun _ => []; c_tasks := []; c_errors := 0%nat |}.
Inductive cop :=
| CSetMain (id : nat) (p : N)    (* setMainTask(Periodic &), lines 116-122; p: period of the periodic *)
| CSetSafety (p : N)             (* setMainTask(SafetySystem &), lines 124-127 *)
| CSetPeriod (p : N)             (* setExecutorPeriod, lines 129-134 *)
| CAdd (id : nat)                (* add(Periodic &), lines 140-145, or add(TimeDomain &), lines 147-153 *)
| CMonitor (id m : nat).         (* periodic.monitors.push_back(m) by the program *)
(** Lines 116-122 (127 and 133 end here). *)
Definition set_main (s : conf) (who : option nat) (p : N) : outcome conf :=
  match c_main s with
  | Some _ => Fault
  | None => Ok {| c_period := p; c_main := Some who; c_mon := c_mon s; c_tasks := c_tasks s; c_errors := c_errors s |}
  end.
(** Lines 116-153. *)
Definition conf_step (s : conf) (o : cop) : outcome conf :=
  match o with
  | CSetMain id p => set_main s (Some id) p
  | CSetSafety p | CSetPeriod p => set_main s None p
  | CAdd id =>
    Ok {| c_period := c_period s; c_main := c_main s; c_mon := c_mon s; c_tasks := c_tasks s ++ [(id, c_mon s id)];
          c_errors := (c_errors s + length (filter (fun t => Nat.eqb (fst t) id) (c_tasks s)))%nat |}
  | CMonitor id m =>
    Ok {| c_period := c_period s; c_main := c_main s; c_mon := upd (c_mon s) id (c_mon s id ++ [m]); c_tasks := c_tasks s;
          c_errors := c_errors s |}
  end.
(** The program catches the exceptions and goes on. *)
Definition conf_go (s : conf) (o : cop) : conf := match conf_step s o with Ok s' => s' | _ => s end.
Definition conf_run (os : list cop) : conf := fold_left conf_go os conf0.
(** Begin of run(), lines 246-257: the main task, the monitors called in each cycle of the main loop (line 256) and the tasks
    with their monitors (createThreads, lines 50-92).  The null pointer is dereferenced in line 256. *)
Definition conf_start (s : conf) : outcome (option nat * list nat * list (nat * list nat)) :=
  if neqb N (c_period s) (nofZ N 0) then Fault
  else match c_main s with
       | None => UB
       | Some (Some id) => Ok (Some id, c_mon s id, c_tasks s)
       | Some None => Ok (None, [], c_tasks s)
       end.
End Conf.
Arguments CSetMain {N} id p. Arguments CSetSafety {N} p. Arguments CSetPeriod {N} p. Arguments CAdd {N} id. Arguments CMonitor {N} id m.

(** ** Choice of the loop *)
(** Options the library is compiled with, and what the program asked for before run(). *)
Record build := { b_ethercat : bool; b_ros : bool; b_ros2 : bool }.
Record wish := { w_stack : bool; w_time : bool; w_topic : bool }.
Inductive xloop := LEtherCat | LRosTime | LRosTopic | LRos2Topic | LClock | LNone.
(** Executor.cpp:278-373 after the preprocessor.  With USE_ETHERCAT the text is [if (etherCATStack) {…} else] followed by
    line 375 (a log message): there is no other loop ([LNone]).  With USE_ROS and USE_ROS2 lines 342 and 345 give [else else if]
    which does not compile ([None]). *)
Definition loop_of (b : build) (w : wish) : option xloop :=
  if b_ethercat b then Some (if w_stack w then LEtherCat else LNone)
  else match b_ros b, b_ros2 b with
       | true, true => None
       | true, false => Some (if w_time w then LRosTime else if w_topic w then LRosTopic else LClock)
       | false, true => Some (if w_time w then LRosTime else if w_topic w then LRos2Topic else LClock)
       | false, false => Some LClock
       end.

(** ** The loop synchronised to the time of ROS *)
(** static_cast<uint64_t>(x): undefined when the truncated value does not fit. *)
Definition to_u64 (N : num) (x : N) : outcome Z :=
  match ntrunc N x with Some z => if (0 <=? z) && (z <? 2 ^ 64) then Ok z else UB | None => UB end.
(** Line 298. *)
Definition period_nsec (N : num) (p : N) : outcome Z := to_u64 N (nmul N p (nofZ N 1000000000)).
Inductive rphase := RHead | RSpin | RExit.
(** [r_log]: for each cycle the time read last, nextCycle and the value of running which ended the waiting. *)
Record rt := { r_phase : rphase; r_run : bool; r_next : Z; r_log : list (Z * Z * bool) }.
Inductive rop := RStep (t : Z) | RStop.   (* the executor makes a step, the ROS time is t; stop() is called by another thread *)
Definition r_start (P t0 : Z) : rt := {| r_phase := RHead; r_run := true; r_next := (t0 + P) mod 2 ^ 64; r_log := [] |}.
(** Lines 300-309; [usleep] and the cycle itself take no step. *)
Definition r_step (P : Z) (s : rt) (o : rop) : rt :=
  match o with
  | RStop => {| r_phase := r_phase s; r_run := false; r_next := r_next s; r_log := r_log s |}
  | RStep t =>
    match r_phase s with
    | RHead => {| r_phase := if r_run s then RSpin else RExit; r_run := r_run s; r_next := r_next s; r_log := r_log s |}
    | RSpin =>
      if (t <? r_next s) && r_run s then s
      else {| r_phase := RHead; r_run := r_run s; r_next := (r_next s + P) mod 2 ^ 64; r_log := r_log s ++ [(t, r_next s, r_run s)] |}
    | RExit => s
    end
  end.
Definition r_runs (P : Z) (s : rt) (os : list rop) : rt := fold_left (r_step P) os s.

(** ** The loop synchronised to a topic of ROS1 *)
Inductive qphase := QHead | QFirst | QWait | QTime | QExit.
(** [q_log]: for each cycle the time, the messages handled before it and the value of running which ended the waiting.
    Times of ROS are numbers, messages too. *)
Record qt := { q_phase : qphase; q_run : bool; q_first : bool; q_now : Z; q_old : Z; q_new : Z; q_queue : list nat;
               q_log : list (Z * list nat * bool) }.
Inductive qop := QStep | QStop | QNow (t : Z) | QMsg (m : nat).
(** Lines 317-319, [first] is static. *)
Definition q_start (first : bool) (t0 : Z) : qt :=
  {| q_phase := QHead; q_run := true; q_first := first; q_now := t0; q_old := t0; q_new := t0; q_queue := []; q_log := [] |}.
Definition q_goto (s : qt) (p : qphase) : qt :=
  {| q_phase := p; q_run := q_run s; q_first := q_first s; q_now := q_now s; q_old := q_old s; q_new := q_new s;
     q_queue := q_queue s; q_log := q_log s |}.
Definition q_read (s : qt) : qt :=
  {| q_phase := q_phase s; q_run := q_run s; q_first := q_first s; q_now := q_now s; q_old := q_old s; q_new := q_now s;
     q_queue := q_queue s; q_log := q_log s |}.
(** Lines 320-341.  [callAvailable] (335) handles all messages in the queue. *)
Definition q_step (s : qt) (o : qop) : qt :=
  match o with
  | QStop => {| q_phase := q_phase s; q_run := false; q_first := q_first s; q_now := q_now s; q_old := q_old s; q_new := q_new s;
                q_queue := q_queue s; q_log := q_log s |}
  | QNow t => {| q_phase := q_phase s; q_run := q_run s; q_first := q_first s; q_now := t; q_old := q_old s; q_new := q_new s;
                 q_queue := q_queue s; q_log := q_log s |}
  | QMsg m => {| q_phase := q_phase s; q_run := q_run s; q_first := q_first s; q_now := q_now s; q_old := q_old s; q_new := q_new s;
                 q_queue := q_queue s ++ [m]; q_log := q_log s |}
  | QStep =>
    match q_phase s with
    | QHead => if q_run s then (if q_first s then q_goto s QFirst else q_goto s QWait) else q_goto s QExit
    | QFirst =>
      if (q_old s =? q_new s) && q_run s then q_read s
      else {| q_phase := QWait; q_run := q_run s; q_first := false; q_now := q_now s; q_old := q_new s; q_new := q_new s;
              q_queue := q_queue s; q_log := q_log s |}
    | QWait => if match q_queue s with [] => true | _ => false end && q_run s then s else q_goto s QTime
    | QTime =>
      if (q_old s =? q_new s) && q_run s then q_read s
      else {| q_phase := QHead; q_run := q_run s; q_first := q_first s; q_now := q_now s; q_old := q_new s; q_new := q_new s;
              q_queue := []; q_log := q_log s ++ [(q_new s, q_queue s, q_run s)] |}
    | QExit => s
    end
  end.
Definition q_runs (s : qt) (os : list qop) : qt := fold_left q_step os s.
