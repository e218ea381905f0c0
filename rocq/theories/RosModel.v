(** Model of the parts connecting the framework to ROS2: time stamps, subscriber blocks and the executor which runs when a
    message arrives.  Sources: includes/eeros/control/ros2/RosTools.hpp 113-128, RosSubscriber.hpp 63-89,
    src/core/Executor.cpp 195-208, 239-241, 349-357. *)
From Verif Require Import Prelude Num.
Open Scope Z_scope.

(** ** Time stamps
    RosTools.hpp 113-118: the seconds pass through a double and are truncated into an int32_t (undefined behaviour when
    they do not fit), the nanoseconds are exact. *)
Definition ns_per_sec : Z := 1000000000.
Definition to_ros (T : num) (ts : Z) : outcome (Z * Z) :=
  match to_int T (ndiv T (nofZ T ts) (nofZ T ns_per_sec)) with
  | Ok s => Ok (s, ts mod ns_per_sec)
  | Fault => Fault
  | UB => UB
  end.
(** RosTools.hpp 126-128; uint64_t arithmetic wraps. *)
Definition to_eeros (t : Z * Z) : Z := ((fst t mod 2 ^ 64) * ns_per_sec + snd t) mod 2 ^ 64.

(** ** Subscriber and executor
    One synchronising subscriber block is run in every cycle of the executor.  Where the executor thread is:
    [Checked]  running was true (349), the wait has not begun;
    [Waiting]  blocked in cv.wait (351);
    [Cycle]    in a cycle, before run() of the block;  [Late]  in a cycle, after run() of the block;
    [Done]     the loop was left. *)
Inductive mode := Checked | Waiting | Cycle | Late | Done.
Record ros (M : Type) := { rs_mode : mode; rs_running : bool; rs_queue : list M; rs_parsed : list M }.
Arguments rs_mode {M}. Arguments rs_running {M}. Arguments rs_queue {M}. Arguments rs_parsed {M}.
Inductive rev_ (M : Type) :=
| EMsg (m : M)   (* rosSubscriberCallback, RosSubscriber.hpp 63-69 *)
| ERun           (* run() of the block, RosSubscriber.hpp 82-89 *)
| EEnd           (* end of the cycle and test of running, Executor.cpp 356, 349 *)
| EWait          (* cv.wait begins, 351 *)
| EStop          (* Executor::stop, 195-208 *)
| ESpurious.     (* spurious wake up of cv.wait *)
Arguments EMsg {M} m. Arguments ERun {M}. Arguments EEnd {M}. Arguments EWait {M}. Arguments EStop {M}. Arguments ESpurious {M}.

(** notify_one (240) wakes the executor only when it waits. *)
Definition notify (m : mode) : mode := match m with Waiting => Cycle | m => m end.
(** One step; None: the event cannot happen here. *)
Definition ros_step {M : Type} (s : ros M) (e : rev_ M) : option (ros M) :=
  let mk md rn q p := Some {| rs_mode := md; rs_running := rn; rs_queue := q; rs_parsed := p |} in
  match e with
  | EMsg m => mk (notify (rs_mode s)) (rs_running s) (rs_queue s ++ [m]) (rs_parsed s)
  | ERun => match rs_mode s with
    | Cycle => match rev (rs_queue s) with
      | [] => mk Late (rs_running s) [] (rs_parsed s)
      | m :: _ => mk Late (rs_running s) [] (rs_parsed s ++ [m])
      end
    | _ => None
    end
  | EEnd => match rs_mode s with Late => mk (if rs_running s then Checked else Done) (rs_running s) (rs_queue s) (rs_parsed s) | _ => None end
  | EWait => match rs_mode s with Checked => mk Waiting (rs_running s) (rs_queue s) (rs_parsed s) | _ => None end
  | EStop => mk (notify (rs_mode s)) false (rs_queue s) (rs_parsed s)
  | ESpurious => match rs_mode s with Waiting => mk Cycle (rs_running s) (rs_queue s) (rs_parsed s) | _ => None end
  end.
Fixpoint ros_run {M : Type} (s : ros M) (es : list (rev_ M)) : option (ros M) :=
  match es with [] => Some s | e :: es => match ros_step s e with None => None | Some s => ros_run s es end end.
(** After line 276 and the first test of running. *)
Definition ros_start {M : Type} : ros M := {| rs_mode := Checked; rs_running := true; rs_queue := []; rs_parsed := [] |}.
