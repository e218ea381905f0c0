(** Small parts: Wait step, Constant block, sysfs output, syslog writer, claims of peripheral blocks, ROS message blocks. *)
From Coq Require Import String.
From Verif Require Import Prelude Num SeqModel HalModel.
Import List ListNotations.
Open Scope Z_scope.

(** ** Wait step: Wait.hpp 33-39
    The exit condition is checked at the times [polls]; the number of the check at which the step ends. *)
Section WaitStep.
Context (N : num).
Fixpoint wait_ends (waiting start : N) (polls : list N) : option nat :=
  match polls with
  | [] => None
  | now :: polls => if wait_exit N waiting start now then Some O else option_map S (wait_ends waiting start polls)
  end.
End WaitStep.

(** ** Constant<T>() for integral T: Constant.hpp 30-32, 78-80
    int32_t min is converted to the type: a bool, or an integer of [bits] bits. *)
Inductive itype := IBool | ISigned (bits : Z) | IUnsigned (bits : Z).
Definition convert_int (t : itype) (z : Z) : Z :=
  match t with
  | IBool => if z =? 0 then 0 else 1
  | IUnsigned b => z mod 2 ^ b
  | ISigned b => (z + 2 ^ (b - 1)) mod 2 ^ b - 2 ^ (b - 1)
  end.
Definition constant_default (t : itype) : Z := convert_int t (- 2 ^ 31).

(** ** SysFsDigOut: SysFsDigOut.cpp 43-48
    The stream keeps what is written in its buffer of [cap] characters; the pin changes when the buffer is written
    out.  inverted is a member which the constructor does not initialise (6, SysFsDigOut.hpp 18): [inv].
    The pin gets the level of the text written out: the kernel takes any text which is not a zero as level 1;
    here: level of the last character. *)
Record sysout := { so_buf : list bool; so_pin : bool }.
Definition so_set (cap : nat) (inv : bool) (s : sysout) (v : bool) : sysout :=
  let v := xorb inv v in
  if (length (so_buf s) <? cap)%nat then {| so_buf := so_buf s ++ [v]; so_pin := so_pin s |}
  else {| so_buf := [v]; so_pin := last (so_buf s) (so_pin s) |}.
(** The destructor closes the stream, which writes the buffer out (33-35). *)
Definition so_close (s : sysout) : sysout := {| so_buf := []; so_pin := last (so_buf s) (so_pin s) |}.

(** ** SysLogWriter: SysLogWriter.cpp 22-77
    LogLevel: LogWriter.hpp 14; priorities of syslog.h. *)
Inductive level := FATAL | ERROR | WARN | INFO | TRACE.
Definition lnum (l : level) : Z := match l with FATAL => 0 | ERROR => 1 | WARN => 2 | INFO => 3 | TRACE => 4 end.
Definition priority (l : level) : Z := match l with FATAL => 1 | ERROR => 3 | WARN => 4 | INFO => 6 | TRACE => 7 end.
(** One writer is used by all loggers and all threads; [M] are the messages. *)
Record syslogw (M : Type) := { sw_level : level; sw_enabled : bool; sw_visible : level; sw_written : list (Z * M) }.
Arguments sw_level {M}. Arguments sw_enabled {M}. Arguments sw_visible {M}. Arguments sw_written {M}.
Inductive sevent (M : Type) := SBegin (l : level) | SEnd (m : M).
Arguments SBegin {M} l. Arguments SEnd {M} m.
Definition sw_step {M : Type} (w : syslogw M) (e : sevent M) : syslogw M :=
  match e with
  | SBegin l => let en := lnum l <=? lnum (sw_visible w) in
      {| sw_level := if en then l else sw_level w; sw_enabled := en; sw_visible := sw_visible w; sw_written := sw_written w |}
  | SEnd m => {| sw_level := sw_level w; sw_enabled := sw_enabled w; sw_visible := sw_visible w;
      sw_written := if sw_enabled w then sw_written w ++ [(priority (sw_level w), m)] else sw_written w |}
  end.
Definition sw_run {M : Type} (w : syslogw M) (es : list (sevent M)) : syslogw M := fold_left sw_step es w.

(** ** Construction of PeripheralInput<T> and PeripheralOutput<T>: PeripheralInput.hpp 30-33, PeripheralOutput.hpp 34-37
    The signal is claimed, then cast.  There is no destructor: the claim stays. *)
Definition periph (Ob : objects) (w : want) (n : string) (exclusive : bool) (s : side) : side * result :=
  let '(s1, r) := do_get Ob RAny n exclusive s in
  match r with
  | Exc => (s1, Exc)
  | Ret p => if match p with None => false | Some _ => casts Ob w p end then (s1, Ret p) else (s1, Exc)
  end.

(** ** ROS message blocks *)
Section RosMsg.
Context {A : Type}.
(** RosSubscriberAnalogSignal.hpp 55-64, RosSubscriberDigitalSignal.hpp (same code): the output vector has [n] elements. *)
Fixpoint sub_vec (n : nat) (val : list A) : outcome (list A) :=
  match n, val with
  | O, _ => Ok []
  | S n, [] => UB
  | S n, v :: val => omap (cons v) (sub_vec n val)
  end.
(** RosPublisherAnalogSignal.hpp 48-53 with getColVector (Matrix.hpp 166-172): all elements of the input vector. *)
Definition pub_vec (sig : list A) : list A := sig.
(** RosPublisherLaserScan.hpp 46-60: rangesValue and intensitiesValue are members; [rv]: rangesValue before.
    None: the input is not connected. The result: the fields ranges and intensities (None: not set), new rangesValue. *)
Definition pub_scan (rv : list A) (ranges intensities : option (list A)) : option (list A) * option (list A) * list A :=
  let rv1 := match ranges with Some r => r | None => rv end in
  (match ranges with Some _ => Some rv1 | None => None end,
   match intensities with Some _ => Some rv1 | None => None end, rv1).
(** RosSubscriberLaserScan.hpp 22-53: time stamps of the seven scalar outputs, then of ranges and intensities. *)
Definition sub_scan_stamps (old : list Z) (time : Z) : list Z := repeat time 7 ++ skipn 7 old.
(** RosPublisherSafetyLevel.hpp 47-58: the pointer is not initialised; [ptr]: None before setSafetySystem. *)
Definition pub_level (ptr : option A) : outcome A := match ptr with None => UB | Some l => Ok l end.
End RosMsg.
