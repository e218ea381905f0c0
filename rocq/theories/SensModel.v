(** Model of the blocks which output the measurements of sensor and drive
    drivers, of the ROS1 blocks, of the events of the gamepad, of the buttons
    registered as inputs of the safety system and of [ControlInput]. *)
From Coq Require Import List ZArith Bool String.
From Verif Require Import Prelude Num.
Import List ListNotations.
Open Scope list_scope.
Open Scope nat_scope.

(** * Output blocks of sensors and drives *)

(** One statement of a [run] method: output [o] gets the quantity [q] of the
    driver, or output [o] gets the time stamp taken in this run. *)
Inductive act := AVal (o q : nat) | AStamp (o : nat).

(** A block: its number of outputs and the statements of its [run].  Outputs
    and quantities are numbered alike (output [i] is documented to carry the
    quantity [i]). *)
Record sblock := mkSblock { sb_outs : nat; sb_run : list act }.

(** RPLidarInput.hpp 45-50: angles, ranges. *)
Definition rplidar_input : sblock := mkSblock 2 [AVal 0 0; AVal 1 1; AStamp 0].
(** ODriveUARTInput.hpp 42-50: the block has three outputs. *)
Definition odrive_uart_input : sblock := mkSblock 3 [AVal 0 0].
(** PixyCamInput.hpp 99-115: out, outRaw, outDots, outHeight, outValid. *)
Definition pixy_input : sblock := mkSblock 5
  [AVal 0 0; AStamp 0; AVal 1 1; AStamp 1; AVal 2 2; AStamp 2;
   AVal 3 3; AStamp 3; AVal 4 4; AStamp 4].
(** RealsenseT265Input.hpp 43-59: translation, velocity, acceleration, angular
    velocity, angular acceleration, quaternion. *)
Definition t265_input : sblock := mkSblock 6
  [AVal 0 0; AVal 1 1; AVal 2 2; AVal 3 3; AVal 4 4; AVal 5 5;
   AStamp 0; AStamp 1; AStamp 2; AStamp 3; AStamp 4; AStamp 5].
(** SBGEllipseAInput.hpp 43-57: euler, quaternion, acc, gyro, timestamp. *)
Definition sbg_input : sblock := mkSblock 5
  [AVal 0 0; AVal 1 1; AVal 2 2; AVal 3 3; AVal 4 4;
   AStamp 0; AStamp 1; AStamp 2; AStamp 3; AStamp 4].
(** BaumerOM70Input.hpp 49-52. *)
Definition baumer_input : sblock := mkSblock 1 [AVal 0 0; AStamp 0].
(** ElmoInput.hpp 35-43: position, velocity, torque. *)
Definition elmo_input : sblock := mkSblock 3
  [AVal 0 0; AStamp 0; AVal 1 1; AStamp 1; AVal 2 2; AStamp 2].

Section Blocks.
Context {V : Type}.
(** The signals of the outputs: value and time stamp, [None] before the first
    assignment. *)
Definition osigs := nat -> option V * option Z.

Definition act_step (data : nat -> V) (ts : Z) (s : osigs) (a : act) : osigs :=
  match a with
  | AVal o q => upd s o (Some (data q), snd (s o))
  | AStamp o => upd s o (fst (s o), Some ts)
  end.

(** One run of a block. *)
Definition sb_step (b : sblock) (data : nat -> V) (ts : Z) (s : osigs) : osigs :=
  fold_left (act_step data ts) (sb_run b) s.
End Blocks.

(** * A driver thread and a block share a vector without a lock *)

(** RealsenseT265.cpp 28-34, SBGEllipseA.hpp 152-190: the thread assigns the
    elements of the vector one by one (comma initialiser);
    RealsenseT265Input.hpp 44-49, SBGEllipseAInput.hpp 44-48: the block copies
    them one by one.  [TW]: the thread writes its next element, [TR]: the block
    copies its next element. *)
Inductive tev := TW | TR.
Record tstate := mkT { t_mem : list Z; t_todo : list (nat * Z); t_got : list Z }.

Fixpoint set_nth (l : list Z) (k : nat) (v : Z) : list Z :=
  match l, k with
  | [], _ => []
  | _ :: r, 0 => v :: r
  | x :: r, S k => x :: set_nth r k v
  end.

Definition t_step (s : tstate) (e : tev) : tstate :=
  match e with
  | TW => match t_todo s with
         | [] => s
         | (k, v) :: r => mkT (set_nth (t_mem s) k v) r (t_got s)
         end
  | TR => match nth_error (t_mem s) (length (t_got s)) with
         | Some v => mkT (t_mem s) (t_todo s) (t_got s ++ [v])
         | None => s
         end
  end.
Definition t_run (s : tstate) (es : list tev) : tstate := fold_left t_step es s.

(** The assignments for the delivered samples. *)
Definition writes (sample : list Z) : list (nat * Z) :=
  combine (seq 0 (length sample)) sample.
Definition t_start (init : list Z) (samples : list (list Z)) : tstate :=
  mkT init (flat_map writes samples) [].

(** * ROS1 subscribers *)

(** RosSubscriber.hpp (ros) 36-44, 75-82: all subscribers put their messages
    into the one global callback queue; a run takes the oldest callback
    ([callOne]) or all ([callAvailable]) from this queue, whatever subscriber
    they belong to.  [nr_out k] is the content of the output of block [k]. *)
Section Ros1.
Context {M : Type}.
Record rnode := mkNode { rn_queue : list (nat * M); rn_out : nat -> option M }.

Definition deliver (out : nat -> option M) (c : nat * M) : nat -> option M :=
  upd out (fst c) (Some (snd c)).

Inductive rop :=
| RArrive (k : nat) (m : M)      (* a message for subscriber k arrives *)
| RRun (k : nat).                (* the control system runs block k *)

Definition node_step (newest : nat -> bool) (s : rnode) (o : rop) : rnode :=
  match o with
  | RArrive k m => mkNode (rn_queue s ++ [(k, m)]) (rn_out s)
  | RRun k =>
      if newest k
      then mkNode [] (fold_left deliver (rn_queue s) (rn_out s))
      else match rn_queue s with
           | [] => s
           | c :: q => mkNode q (deliver (rn_out s) c)
           end
  end.
Definition node_run (newest : nat -> bool) (s : rnode) (os : list rop) : rnode :=
  fold_left (node_step newest) os s.
Definition node0 : rnode := mkNode [] (fun _ => None).
End Ros1.
Arguments rnode : clear implicits.
Arguments rop : clear implicits.

(** ** Arrays and laser scans *)

(** Matrix.hpp 217-221: [setCol] reads element [m] of the vector for every row
    [m < M] without comparing the lengths. *)
Definition set_col {A} (rows : nat) (l : list A) : outcome (list A) :=
  if length l <? rows then UB else Ok (firstn rows l).

(** RosPublisherDoubleArray.hpp 43-49: an unconnected input leaves the message
    as it was. *)
Definition publish_array {A} (input : option (list A)) (msg : list A) : list A :=
  match input with Some v => v | None => msg end.
(** RosSubscriberDoubleArray.hpp 50-56. *)
Definition receive_array {A} (rows : nat) (msg : list A) : outcome (list A) :=
  set_col rows msg.

(** RosPublisherLaserScan.hpp (ros) 48-61: line 58 takes the column of
    [rangesValue] for the intensities.  [rv] is the member [rangesValue]; the
    conversions to float are left out. *)
Definition publish_scan {A} (ranges intens : option (list A)) (rv : list A)
    (msg : list A * list A) : list A * (list A * list A) :=
  let rv' := match ranges with Some r => r | None => rv end in
  (rv', (match ranges with Some _ => rv' | None => fst msg end,
         match intens with Some _ => rv' | None => snd msg end)).

(** RosSubscriberLaserScan.hpp (ros) 23-54: which outputs get the time stamp of
    the message: the seven scalars, not ranges (7) and intensities (8). *)
Definition scan_stamps (old : nat -> Z) (stamp : Z) : nat -> Z :=
  fun k => if k <? 7 then stamp else old k.

(** ** Time stamps, EerosRosTools.hpp 27-32 *)

(** The seconds pass through a double and are truncated into a [uint32_t]
    (undefined when they do not fit), the nanoseconds are exact. *)
Definition to_ros1 (T : num) (ts : Z) : outcome (Z * Z) :=
  match ntrunc T (ndiv T (nofZ T ts) (nofZ T 1000000000)) with
  | Some s =>
      if ((0 <=? s) && (s <? 2 ^ 32))%Z then Ok (s, (ts mod 1000000000)%Z) else UB
  | None => UB
  end.

(** * Gamepad events, XBox.cpp 78-118 *)

(** [struct js_event] as far as used: button or axis (other types do nothing),
    synthetic event ([JS_EVENT_INIT]), number, value. *)
Inductive js_kind := JButton | JAxis | JOther.
Record js_event := mkJs { j_kind : js_kind; j_init : bool; j_num : nat; j_val : Z }.

Record xstate := mkX {
  x_ev : option js_event;          (* the local [e]; None: not initialised *)
  x_state : nat -> bool; x_last : nat -> bool;
  x_up : nat -> bool; x_down : nat -> bool;
  x_calls : list (nat * Z)         (* calls of button_action *)
}.

(** XBox.cpp 30-37. *)
Definition x0 : xstate :=
  mkX None (fun _ => false) (fun _ => false) (fun _ => false) (fun _ => false) [].

(** One pass of the loop.  The result of [read] is not looked at (line 83):
    [None] is a read that failed and left [e] unchanged. *)
Definition x_step (s : xstate) (r : option js_event) : outcome xstate :=
  match (match r with Some e => Some e | None => x_ev s end) with
  | None => UB
  | Some e =>
      match j_kind e with
      | JButton =>
          if j_num e <? 8 then
            let v := negb (j_val e =? 0)%Z in
            let st := upd (x_state s) (j_num e) v in
            let l := x_last s (j_num e) in
            Ok (mkX (Some e) st st
                 (upd (x_up s) (j_num e) (negb v && l))
                 (upd (x_down s) (j_num e) (v && negb l))
                 (if j_init e then x_calls s
                  else x_calls s ++ [(j_num e, j_val e)]))
          else Ok (mkX (Some e) (x_state s) (x_state s) (x_up s) (x_down s) (x_calls s))
      | _ => Ok (mkX (Some e) (x_state s) (x_state s) (x_up s) (x_down s) (x_calls s))
      end
  end.

Fixpoint x_run (s : xstate) (rs : list (option js_event)) : outcome xstate :=
  match rs with
  | [] => Ok s
  | r :: rs => bind (x_step s r) (fun s' => x_run s' rs)
  end.

(** * Buttons as inputs of the safety system *)

Open Scope string_scope.
(** XBoxDigIn.hpp 15-25 with XBox.hpp 36-43. *)
Definition xbox_get (id : string) (button : nat -> bool) : bool :=
  if id =? "XBoxButtonA" then button 0
  else if id =? "XBoxButtonB" then button 1
  else if id =? "XBoxButtonX" then button 2
  else if id =? "XBoxButtonY" then button 3
  else if id =? "XBoxButtonLB" then button 4
  else if id =? "XBoxButtonRB" then button 5
  else if id =? "XBoxButtonBack" then button 6
  else if id =? "XBoxButtonStart" then button 7
  else false.
(** MouseDigIn.hpp 24-29: left 0, middle 1, right 2. *)
Definition mouse_get (id : string) (button : nat -> bool) : bool :=
  if id =? "leftMouseButton" then button 0
  else if id =? "middleMouseButton" then button 1
  else if id =? "rightMouseButton" then button 2
  else false.
(** SpaceNavigatorDigIn.hpp 15-19 with SpaceNavigator.hpp 34-35. *)
Definition spacenav_get (id : string) (button : nat -> bool) : bool :=
  if id =? "SpaceNavButtonL" then button 0
  else if id =? "SpaceNavButtonR" then button 1
  else false.
(** The names under which the inputs are registered: XBox.cpp 15-22,
    Mouse.cpp 14-16, SpaceNavigator.cpp 16-17. *)
Definition xbox_ids : list string :=
  ["XBoxButtonA"; "XBoxButtonB"; "XBoxButtonX"; "XBoxButtonY"; "XBoxButtonLB";
   "XBoxButtonRB"; "XBoxButtonBack"; "XBoxButtonStart"].
Definition mouse_ids : list string :=
  ["leftMouseButton"; "middleMouseButton"; "rightMouseButton"].
Definition spacenav_ids : list string := ["SpaceNavButtonL"; "SpaceNavButtonR"].
Close Scope string_scope.

(** * ControlInput, ControlInput.hpp 28-44 *)

(** Outputs with their values, the output the input of a block is connected to
    (Input.hpp 41-64) and the signal to which the control input refers. *)
Record cstate := mkC {
  c_vals : nat -> Z; c_conn : option nat; c_ref : option nat
}.
Inductive cop :=
| CSet (k : nat) (v : Z)     (* a block sets its output *)
| CConnect (k : nat)         (* refused when connected *)
| CDisconnect
| CMake.                     (* ControlInput(id, input), lines 28-30 *)

(** Creating the control input of an unconnected input throws. *)
Definition c_step (s : cstate) (o : cop) : outcome cstate :=
  match o with
  | CSet k v => Ok (mkC (upd (c_vals s) k v) (c_conn s) (c_ref s))
  | CConnect k =>
      Ok (mkC (c_vals s)
            (match c_conn s with None => Some k | c => c end) (c_ref s))
  | CDisconnect => Ok (mkC (c_vals s) None (c_ref s))
  | CMake => match c_conn s with
             | Some k => Ok (mkC (c_vals s) (c_conn s) (Some k))
             | None => Fault
             end
  end.
Fixpoint c_run (s : cstate) (os : list cop) : outcome cstate :=
  match os with
  | [] => Ok s
  | o :: os => bind (c_step s o) (fun s' => c_run s' os)
  end.
(** [get()] of the control input, lines 43-44, and of the input itself
    (Input.hpp 82-87). *)
Definition c_get (s : cstate) : option Z := option_map (c_vals s) (c_ref s).
Definition c_input (s : cstate) : option Z := option_map (c_vals s) (c_conn s).
