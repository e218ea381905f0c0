(** Model of src/core (ring buffer, semaphore, statistics, periodic counter, executor) and
    src/task. *)
From Verif Require Import Prelude Num.
From Coq Require Import Floats.SpecFloat.
Open Scope Z_scope.

(** ** includes/eeros/core/RingBuffer.hpp *)
Section RingBuffer.
Context {T : Type}.

(** Lines 35-39.  [ritems] is the array (junk initially).  rtail and rlen are unsigned int; they
    stay below 2N, so for N < 2^31 no wrap-around occurs and nat is exact. *)
Record ring := { rtail : nat; rlen : nat; ritems : nat -> T }.

(** Line 13: constructor; [junk] is the uninitialised array. *)
Definition ring_new (junk : nat -> T) : ring := {| rtail := 0; rlen := 0; ritems := junk |}.

(** Lines 15-20 push. *)
Definition push (N : nat) (b : ring) (v : T) : ring * bool :=
  if Nat.eqb (rlen b) N then (b, false)
  else ({| rtail := rtail b; rlen := S (rlen b);
           ritems := upd (ritems b) ((rtail b + rlen b) mod N)%nat v |}, true).

(** Lines 22-29 pop; [None]: returned false. *)
Definition pop (N : nat) (b : ring) : ring * option T :=
  if Nat.eqb (rlen b) 0 then (b, None)
  else ({| rtail := ((rtail b + 1) mod N)%nat; rlen := Nat.pred (rlen b); ritems := ritems b |},
        Some (ritems b (rtail b))).

Inductive rbop := Push (v : T) | Pop.
(** Result of an operation: what a caller observes. *)
Inductive rbres := RPush (ok : bool) | RPop (v : option T).
Definition rb_step (N : nat) (b : ring) (o : rbop) : ring * rbres :=
  match o with
  | Push v => let (b', ok) := push N b v in (b', RPush ok)
  | Pop => let (b', v) := pop N b in (b', RPop v)
  end.
Fixpoint rb_runs (N : nat) (b : ring) (os : list rbop) : ring * list rbres :=
  match os with
  | [] => (b, [])
  | o :: os' => let (b1, r) := rb_step N b o in
                let (b2, rs) := rb_runs N b1 os' in (b2, r :: rs)
  end.
End RingBuffer.

(** ** src/task/Harmonic.cpp *)
(** Harmonic.hpp:15-17 (the task pointer is a task id). *)
Record harmonic := { hn : Z; hk : Z; htask : nat }.
(** Lines 6-10. *)
Definition harmonic_new (task : nat) (n : Z) : harmonic := {| hn := n; hk := 0; htask := task |}.
(** Lines 16-21: [if (++k >= n) { task->run(); k = 0; }].  Returns whether the task ran.  int
    overflow of k is impossible since k is reset when it reaches n. *)
Definition harmonic_run (t : harmonic) : harmonic * bool :=
  let k := hk t + 1 in
  if k >=? hn t then ({| hn := hn t; hk := 0; htask := htask t |}, true)
  else ({| hn := hn t; hk := k; htask := htask t |}, false).
Fixpoint harmonic_runs (t : harmonic) (m : nat) : harmonic * list bool :=
  match m with
  | O => (t, [])
  | S m' => let (t1, b) := harmonic_run t in
            let (t2, bs) := harmonic_runs t1 m' in (t2, b :: bs)
  end.

(** ** src/task/HarmonicTaskList.cpp:6-17 *)
(** One run: members in order; the ids of the tasks that were run. *)
Fixpoint hlist_run (ts : list harmonic) : list harmonic * list nat :=
  match ts with
  | [] => ([], [])
  | t :: ts' =>
    let (t1, b) := harmonic_run t in
    let (ts1, l) := hlist_run ts' in
    (t1 :: ts1, if b then htask t :: l else l)
  end.
Fixpoint hlist_runs (ts : list harmonic) (m : nat) : list harmonic * list (list nat) :=
  match m with
  | O => (ts, [])
  | S m' => let (ts1, l) := hlist_run ts in
            let (ts2, ls) := hlist_runs ts1 m' in (ts2, l :: ls)
  end.
(** add (lines 11-17). *)
Definition hlist_add (ts : list harmonic) (task : nat) (n : Z) := ts ++ [harmonic_new task n].
Definition hlist_of (l : list (nat * Z)) : list harmonic :=
  fold_left (fun ts a => hlist_add ts (fst a) (snd a)) l [].

(** ** src/core/Executor.cpp:58-92 createThread: the factor of one task *)
(** [None]: std::runtime_error "period deviation too high" (line 82).  [lim] is 0.01. *)
Definition harmonic_factor (N : num) (lim period base : N) : outcome (option Z) :=
  bind (to_int N (ndiv N period base)) (fun k =>
  let actual := nmul N (nofZ N k) base in
  let deviation := ndiv N (nabs N (nsub N period actual)) period in
  if nltb N lim deviation then Ok None else Ok (Some k)).

(** ** src/core/Executor.cpp:41-48 and 170-193 assignPriorities *)
(** task::Periodic: id, period, realtime flag and the before/after lists
    (includes/eeros/task/Periodic.hpp:112-135). *)
Inductive ptask (P : Type) :=
| PTask (id : nat) (period : P) (realtime : bool) (before after : list (ptask P)).
Arguments PTask {P}.
(** What assignPriorities sees of a task. *)
Record pinfo (P : Type) := { pid : nat; pperiod : P; prt : bool }.
Arguments pid {P}. Arguments pperiod {P}. Arguments prt {P}.

(** Lines 41-48 traverse, collecting the tasks in preorder. *)
Fixpoint traverse1 {P} (t : ptask P) : list (pinfo P) :=
  match t with
  | PTask id per rt before after =>
    {| pid := id; pperiod := per; prt := rt |} ::
    flat_map traverse1 before ++ flat_map traverse1 after
  end.
Definition traverse {P} (ts : list (ptask P)) : list (pinfo P) := flat_map traverse1 ts.

(** Lines 179-184: the comparison of std::sort. *)
Definition prio_less {P} (lt : P -> P -> bool) (a b : pinfo P) : bool :=
  if Bool.eqb (prt a) (prt b) then lt (pperiod a) (pperiod b) else prt a.
(** Guarantee of std::sort: the result is a permutation in which no later element is less
    than an earlier one. *)
Fixpoint std_sorted {A} (less : A -> A -> bool) (l : list A) : Prop :=
  match l with
  | [] => True
  | a :: l' => (forall b, In b l' -> less b a = false) /\ std_sorted less l'
  end.
(** Lines 187-192: nice 1, 2, ... for the realtime tasks in list order. *)
Fixpoint assign_nice {P} (n : Z) (l : list (pinfo P)) : list (nat * Z) :=
  match l with
  | [] => []
  | t :: l' => if prt t then (pid t, n) :: assign_nice (n + 1) l' else assign_nice n l'
  end.
(** Executor.hpp:135 and Executor.cpp:164-168: scheduling priority for a nice level. *)
Definition sched_priority (nice : Z) : Z := 49 - nice.

(** ** src/core/Statistics.cpp *)
Record stats (N : num) := { scount : Z; slast : N; smin : N; smax : N; smean : N; svar : N; sA : N; sB : N }.
Arguments scount {N}. Arguments slast {N}. Arguments smin {N}. Arguments smax {N}.
Arguments smean {N}. Arguments svar {N}. Arguments sA {N}. Arguments sB {N}.
(** Lines 25-34 reset; [big] = numeric_limits<double>::max(), [low] = lowest(). *)
Definition stats_reset (N : num) (big low : N) : stats N :=
  {| scount := 0; slast := nofZ N 0; smin := big; smax := low; smean := nofZ N 0;
     svar := nofZ N 0; sA := nofZ N 0; sB := nofZ N 0 |}.
(** Lines 11-23 add.  Simplification: count is unbounded instead of long. *)
Definition stats_add {N : num} (s : stats N) (v : N) : stats N :=
  let mn := if nltb N v (smin s) then v else smin s in
  let mx := if nltb N (smax s) v then v else smax s in
  let c := scount s + 1 in
  let A := nadd N (sA s) v in
  let B := nadd N (sB s) (nmul N v v) in
  let mean := ndiv N A (nofZ N c) in
  let var := nadd N (ndiv N (nsub N B (nmul N (nmul N (nofZ N 2) mean) A)) (nofZ N c))
                  (nmul N mean mean) in
  {| scount := c; slast := v; smin := mn; smax := mx; smean := mean; svar := var; sA := A; sB := B |}.
Definition stats_adds {N : num} (s : stats N) (vs : list N) : stats N := fold_left stats_add vs s.

(** ** src/core/PeriodicCounter.cpp *)
(** Times are the doubles (seconds) of the clock.  [cperiods], [cjitters], [cruns]: the samples
    added to the three Statistics objects, oldest first. *)
Record pcounter (N : num) := {
  cnominal : N; cfirst : bool; cstart : N; clast : N;
  cperiods : list N; cjitters : list N; cruns : list N }.
Arguments cnominal {N}. Arguments cfirst {N}. Arguments cstart {N}. Arguments clast {N}.
Arguments cperiods {N}. Arguments cjitters {N}. Arguments cruns {N}.
(** Lines 27-30 tick at time [t]. *)
Definition pc_tick {N : num} (c : pcounter N) (t : N) : pcounter N :=
  {| cnominal := cnominal c; cfirst := cfirst c; cstart := t; clast := cstart c;
     cperiods := cperiods c; cjitters := cjitters c; cruns := cruns c |}.
(** Lines 32-49 tock at time [t]. *)
Definition pc_tock {N : num} (c : pcounter N) (t : N) : pcounter N :=
  let run := nsub N t (cstart c) in
  if cfirst c then
    {| cnominal := cnominal c; cfirst := false; cstart := cstart c; clast := clast c;
       cperiods := cperiods c; cjitters := cjitters c; cruns := cruns c ++ [run] |}
  else
    let p := nsub N (cstart c) (clast c) in
    {| cnominal := cnominal c; cfirst := false; cstart := cstart c; clast := clast c;
       cperiods := cperiods c ++ [p]; cjitters := cjitters c ++ [nsub N p (cnominal c)];
       cruns := cruns c ++ [run] |}.
(** A sequence of cycles with start and stop times. *)
Definition pc_cycles {N : num} (c : pcounter N) (ts : list (N * N)) : pcounter N :=
  fold_left (fun c st => pc_tock (pc_tick c (fst st)) (snd st)) ts c.
(** Lines 6-12 constructor at time [t0] and 51-56 reset: the conversion
    [(int)(reset_after / counter_period)] may be undefined. *)
Definition pc_new (N : num) (reset_after period t0 : N) : outcome (pcounter N) :=
  bind (to_int N (ndiv N reset_after period)) (fun _ =>
  Ok {| cnominal := period; cfirst := true; cstart := t0; clast := t0;
        cperiods := []; cjitters := []; cruns := [] |}).
(** Lines 84-96: does the default monitor warn about the last period T?  (1 - tolerance) and
    (1 + tolerance) are computed in the same arithmetic. *)
Definition default_monitor_warns (N : num) (period tolerance T : N) : bool :=
  let tmin := nmul N period (nsub N (nofZ N 1) tolerance) in
  let tmax := nmul N period (nadd N (nofZ N 1) tolerance) in
  nltb N T tmin || nltb N tmax T.

(** ** src/task/Async.cpp with src/core/Semaphore.cpp, as interleaved steps *)
(** [aCounter]: semaphore counter; [aFinished]; [aWorker]: position of the worker thread;
    ghost [aPosts]: calls of run(); [aRuns]: executions of the task that were started. *)
Inductive wpos := WWait | WRunning | WExited.
Record async := { aCounter : Z; aFinished : bool; aWorker : wpos; aPosts : Z; aRuns : Z }.
Definition async_new : async :=
  {| aCounter := 0; aFinished := false; aWorker := WWait; aPosts := 0; aRuns := 0 |}.
Inductive aop :=
| APost          (* run(), lines 25-27 *)
| AStop          (* stop(), lines 29-32 *)
| AWorker.       (* next step of the worker thread, lines 58-64 *)
(** The worker's step: when waiting, it proceeds only if the counter is positive
    (Semaphore.cpp:9-13), then checks [finished]. *)
Definition async_step (s : async) (o : aop) : async :=
  match o with
  | APost => {| aCounter := aCounter s + 1; aFinished := aFinished s; aWorker := aWorker s;
                aPosts := aPosts s + 1; aRuns := aRuns s |}
  | AStop => {| aCounter := aCounter s + 1; aFinished := true; aWorker := aWorker s;
                aPosts := aPosts s; aRuns := aRuns s |}
  | AWorker =>
    match aWorker s with
    | WWait =>
      if aCounter s >? 0 then
        if aFinished s
        then {| aCounter := aCounter s - 1; aFinished := true; aWorker := WExited;
                aPosts := aPosts s; aRuns := aRuns s |}
        else {| aCounter := aCounter s - 1; aFinished := false; aWorker := WRunning;
                aPosts := aPosts s; aRuns := aRuns s + 1 |}
      else s
    | WRunning => {| aCounter := aCounter s; aFinished := aFinished s; aWorker := WWait;
                     aPosts := aPosts s; aRuns := aRuns s |}
    | WExited => s
    end
  end.
Definition async_runs (s : async) (os : list aop) : async := fold_left async_step os s.

(** Construction of Async (Async.hpp:26-34, Async.cpp:12-14): the members are initialised in
    declaration order, the thread is started before [finished] and [log] are initialised.
    [c]: next member the constructor initialises; the worker uses [log] first (line 46/55) and
    later reads [finished]; using an uninitialised member is undefined behaviour. *)
Inductive member := MTask | MRealtime | MNice | MSemaphore | MThread | MFinished | MLog.
Definition async_members : list member :=
  [MTask; MRealtime; MNice; MSemaphore; MThread; MFinished; MLog].
Definition worker_uses : list member := [MRealtime; MLog; MSemaphore; MFinished; MTask].
Inductive cop := CInit | CUse.   (* constructor step / worker step *)
Definition member_eqb (a b : member) : bool :=
  match a, b with
  | MTask, MTask | MRealtime, MRealtime | MNice, MNice | MSemaphore, MSemaphore
  | MThread, MThread | MFinished, MFinished | MLog, MLog => true
  | _, _ => false
  end.
(** State: number of initialised members, number of members the worker has used. *)
Definition ctor_step (s : nat * nat) (o : cop) : outcome (nat * nat) :=
  let (i, u) := s in
  match o with
  | CInit => Ok (if Nat.ltb i (length async_members) then S i else i, u)
  | CUse =>
    if existsb (member_eqb MThread) (firstn i async_members) then
      match nth_error worker_uses u with
      | None => Ok (i, u)
      | Some m => if existsb (member_eqb m) (firstn i async_members) then Ok (i, S u) else UB
      end
    else Ok (i, u)   (* the thread does not exist yet *)
  end.
Fixpoint ctor_runs (s : nat * nat) (os : list cop) : outcome (nat * nat) :=
  match os with
  | [] => Ok s
  | o :: os' => bind (ctor_step s o) (fun s' => ctor_runs s' os')
  end.

(** ** Executor::run / Executor::stop (Executor.cpp:195-208, 244-276, 361-372) *)
Inductive xphase := XIdle | XStarting | XLooping | XExited.
(** [xCycles]: completed cycles of the main loop. *)
Record exec := { xphase_of : xphase; xRunning : bool; xCycles : Z }.
Inductive xop :=
| XRun        (* run() is entered *)
| XReady      (* line 276: running = true, the loop is entered *)
| XCheck      (* head of the loop: leave when !running, else one cycle *)
| XStop.      (* stop(), line 197 *)
Definition exec_step (s : exec) (o : xop) : exec :=
  match o, xphase_of s with
  | XRun, XIdle => {| xphase_of := XStarting; xRunning := xRunning s; xCycles := xCycles s |}
  | XReady, XStarting => {| xphase_of := XLooping; xRunning := true; xCycles := xCycles s |}
  | XCheck, XLooping =>
    if xRunning s then {| xphase_of := XLooping; xRunning := true; xCycles := xCycles s + 1 |}
    else {| xphase_of := XExited; xRunning := false; xCycles := xCycles s |}
  | XStop, _ => {| xphase_of := xphase_of s; xRunning := false; xCycles := xCycles s |}
  | _, _ => s
  end.
Definition exec_runs (s : exec) (os : list xop) : exec := fold_left exec_step os s.
Definition exec_new (running0 : bool) : exec :=
  {| xphase_of := XIdle; xRunning := running0; xCycles := 0 |}.

(** Executor.cpp:363-372: wake-up time of the n-th cycle; [nextCycle += seconds(period)]. *)
Fixpoint wakeup (N : num) (start period : N) (n : nat) : N :=
  match n with
  | O => nadd N start period
  | S n => nadd N (wakeup N start period n) period
  end.

(** ** Nested harmonic tasks *)
(** A task in the before/after list of another one is triggered from the run of its parent
    (Executor.cpp:64-70, 90-91): a chain of counters, outermost first.  Simplification: a
    triggered Async executes before its next trigger. *)
Fixpoint chain_run (c : list harmonic) : list harmonic * bool :=
  match c with
  | [] => ([], true)
  | t :: c' =>
    let (t1, b) := harmonic_run t in
    if b then let (c1, r) := chain_run c' in (t1 :: c1, r) else (t1 :: c', false)
  end.
Fixpoint chain_runs (c : list harmonic) (m : nat) : list harmonic * list bool :=
  match m with
  | O => (c, [])
  | S m' => let (c1, b) := chain_run c in
            let (c2, bs) := chain_runs c1 m' in (c2, b :: bs)
  end.

(** The thread tree built by createThread (Executor.cpp:58-92): factor, own task and the
    threads of the before and after tasks. *)
Inductive thr := Thr (k : Z) (own : nat) (before after : list thr).
(** Executor.cpp:50-92.  [Fault]: "period deviation too high".  The checks for a missing
    priority and an empty list never fire (assignPriorities ran before; the list contains
    the own task). *)
Fixpoint create_thread (N : num) (lim base : N) (t : ptask N) : outcome thr :=
  match t with
  | PTask id per rt before after =>
    let fix go (ts : list (ptask N)) : outcome (list thr) :=
      match ts with
      | [] => Ok []
      | x :: xs => bind (create_thread N lim per x) (fun y => bind (go xs) (fun ys => Ok (y :: ys)))
      end in
    bind (to_int N (ndiv N per base)) (fun k =>
    bind (go before) (fun b =>
    bind (go after) (fun a =>
    if nltb N lim (ndiv N (nabs N (nsub N per (nmul N (nofZ N k) base))) per) then Fault
    else Ok (Thr k id b a))))
  end.

(** ** src/core/System_POSIX.cpp:18-20 timespec2nsec, arithmetic in uint64_t *)
Definition timespec2nsec (sec nsec : Z) : Z := (sec * 1000000000 + nsec) mod 2 ^ 64.

(** ** src/core/Thread.cpp:9-19: the thread is started in the base class constructor and calls
    the virtual [run]; the dynamic type is the base class until its constructor has ended. *)
Inductive tclass := TBase | TDerived.
Record threadobj := { tclass_now : tclass; tcalled : option tclass }.
Inductive thop := TConstructed (* base constructor ended *) | TCall (* thread reaches this->run() *).
Definition thread_step (s : threadobj) (o : thop) : threadobj :=
  match o with
  | TConstructed => {| tclass_now := TDerived; tcalled := tcalled s |}
  | TCall => match tcalled s with
             | None => {| tclass_now := tclass_now s; tcalled := Some (tclass_now s) |}
             | Some _ => s
             end
  end.
Definition thread_runs (os : list thop) : threadobj :=
  fold_left thread_step os {| tclass_now := TBase; tcalled := None |}.
