(** The threads of the executor (src/core/Executor.cpp with src/task) interleaved in any order, and the program
    examples/task/PeriodicExample3.cpp.  Removes the simplification of TaskModel.v that a triggered thread runs before its next
    trigger.  Simplification: the executor is not stopped (the example never does), and semaphore counters do not overflow. *)
From Verif Require Import Prelude Num TaskModel.
Local Open Scope nat_scope.

(** What a list of tasks contains (HarmonicTaskList.hpp 16): the own task, or the thread [c] with the factor [k]. *)
Inductive item := Own | Sub (c k : nat).

(** Where a thread is: waiting for its semaphore (Async.cpp 58 and 63; the executor, Executor.cpp 365: for the time), or at the
    item with the index [i] (HarmonicTaskList.cpp 6-9); [busy]: in the middle of the own task. *)
Inductive pos := Wait | At (i : nat) (busy : bool).

(** Thread 0 is the executor, thread [c] has the semaphore [sem c] and is triggered with the counter [cnt c] (Harmonic.hpp 16).
    [ent]: runs of the list entered; [beg], [fin]: runs of the own task begun and ended. *)
Record st := { pc : nat -> pos; sem : nat -> nat; cnt : nat -> nat; ent : nat -> nat; beg : nat -> nat; fin : nat -> nat }.
Definition init : st :=
  {| pc := fun _ => Wait; sem := fun _ => 0; cnt := fun _ => 0; ent := fun _ => 0; beg := fun _ => 0; fin := fun _ => 0 |}.

(** The next step of thread [n].  Executor.cpp 365-372 (thread 0), Async.cpp 58-64, HarmonicTaskList.cpp 6-9, Harmonic.cpp 16-21
    with Async.cpp 25-27. *)
Definition step (prog : nat -> list item) (n : nat) (s : st) : st :=
  match pc s n with
  | Wait =>
    let go := {| pc := upd (pc s) n (At 0 false); sem := if n =? 0 then sem s else upd (sem s) n (pred (sem s n)); cnt := cnt s;
                 ent := upd (ent s) n (S (ent s n)); beg := beg s; fin := fin s |} in
    if n =? 0 then go else if 0 <? sem s n then go else s
  | At i busy =>
    match nth_error (prog n) i with
    | None => {| pc := upd (pc s) n Wait; sem := sem s; cnt := cnt s; ent := ent s; beg := beg s; fin := fin s |}
    | Some Own =>
      if busy then {| pc := upd (pc s) n (At (S i) false); sem := sem s; cnt := cnt s; ent := ent s; beg := beg s;
                      fin := upd (fin s) n (S (fin s n)) |}
      else {| pc := upd (pc s) n (At i true); sem := sem s; cnt := cnt s; ent := ent s; beg := upd (beg s) n (S (beg s n));
              fin := fin s |}
    | Some (Sub c k) =>
      if k <=? S (cnt s c)
      then {| pc := upd (pc s) n (At (S i) false); sem := upd (sem s) c (S (sem s c)); cnt := upd (cnt s) c 0; ent := ent s;
              beg := beg s; fin := fin s |}
      else {| pc := upd (pc s) n (At (S i) false); sem := sem s; cnt := upd (cnt s) c (S (cnt s c)); ent := ent s; beg := beg s;
              fin := fin s |}
    end
  end.
Fixpoint steps (prog : nat -> list item) (ls : list nat) (s : st) : st :=
  match ls with [] => s | n :: r => steps prog r (step prog n s) end.

(** The lists built by createThread, Executor.cpp 58-92, from the threads of TaskModel.v: thread number = number of its task; the
    executor runs its list and then the main task (367-370). *)
Definition sub (t : thr) : item := match t with Thr k own _ _ => Sub own (Z.to_nat k) end.
Fixpoint flat (t : thr) : list (nat * list item) :=
  match t with Thr _ own b a => (own, map sub b ++ Own :: map sub a) :: flat_map flat b ++ flat_map flat a end.
Definition prog_of (ts : list thr) (n : nat) : list item :=
  if n =? 0 then map sub ts ++ [Own]
  else match find (fun x => fst x =? n) (flat_map flat ts) with Some x => snd x | None => [] end.

(** ** The configuration *)
(** task::Periodic (Periodic.hpp 112-135) is a value: pushing one into the list of another copies it. *)
Inductive periodic := Per (id : nat) (period : Z) (mons : nat) (after : list periodic).
Inductive conf_op :=
| CNew (id : nat) (period : Z)   (* constructor *)
| CMon (id : nat)                (* monitors.push_back *)
| CAfter (p c : nat)             (* p.after.push_back(c) *)
| CAdd (id : nat).               (* Executor.cpp 140-145 *)
(** The variables of the program and the tasks of the executor. *)
Record cst := { vars : nat -> periodic; tasks : list periodic }.
Definition cstep (s : cst) (o : conf_op) : cst :=
  match o with
  | CNew i p => {| vars := upd (vars s) i (Per i p 0 []); tasks := tasks s |}
  | CMon i => match vars s i with Per j p m a => {| vars := upd (vars s) i (Per j p (S m) a); tasks := tasks s |} end
  | CAfter i c => match vars s i with
                  | Per j p m a => {| vars := upd (vars s) i (Per j p m (a ++ [vars s c])); tasks := tasks s |} end
  | CAdd i => {| vars := vars s; tasks := tasks s ++ [vars s i] |}
  end.
Definition config (os : list conf_op) : list periodic :=
  tasks (fold_left cstep os {| vars := fun i => Per i 0 0 []; tasks := [] |}).
(** PeriodicExample3.cpp 50-127, periods in seconds (dt, line 17, is 1); the main task is number 0 and not in the list. *)
Definition example3 : list conf_op :=
  [CNew 1 1; CMon 1; CNew 2 2; CMon 2; CNew 4 4; CAfter 2 4; CAfter 1 2; CMon 4; CNew 3 5; CAfter 1 3; CMon 3; CNew 5 3; CMon 5;
   CAdd 1; CAdd 5].
(** The monitors which the threads get: Executor.cpp 31-36. *)
Fixpoint monitored (t : periodic) : list (nat * nat) :=
  match t with Per i _ m a => (i, m) :: flat_map monitored a end.
(** The tasks as TaskModel.v sees them; all are realtime tasks (Periodic.hpp 31). *)
Fixpoint ptask_of (N : num) (t : periodic) : ptask N :=
  match t with Per i p _ a => PTask i (nofZ N p) true [] (map (ptask_of N) a) end.
