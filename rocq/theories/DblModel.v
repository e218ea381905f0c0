(** The wake-up times of the executor as the machine computes them.

    /repo/src/core/Executor.cpp:259 defines [seconds] as a duration of type double.  The sum of the time point of steady_clock
    (whole nanoseconds, 64 bit integers) and such a duration has the common type of both, a double counting nanoseconds
    (line 363); [nextCycle += seconds(period)] (line 371) converts the period to this type, which multiplies it by 1e9.
    Left out: [sleep_until] itself. *)
From Verif Require Import Prelude Num TaskModel.
Open Scope Z_scope.

(** The period in nanoseconds, converted by the compiler to the type of nextCycle (lines 363, 371). *)
Definition period_ns (period : Dnum) : Dnum := nmul Dnum period (nofZ Dnum 1000000000).
(** nextCycle in cycle [n] (counted from 0) of an executor started at [now] (lines 363-372). *)
Definition exec_wake (now : Z) (period : Dnum) (n : nat) : Dnum := wakeup Dnum (nofZ Dnum now) (period_ns period) n.
