(** Model of src/sequencer: BaseSequence, Monitor, ConditionTimeout, Sequence, Sequencer. *)
From Verif Require Import Prelude Num.
From Coq Require Import String Ascii.
Open Scope Z_scope.
Open Scope list_scope.

(** BaseSequence.hpp:18-26.  [paused] is never assigned. *)
Inductive phase := Idle | Starting | Running | Aborting | Terminated | Restarting.
(** SequenceProp (Monitor.hpp). *)
Inductive behaviour := Resume | Abort | Restart.

(** User code of an action(): calls other steps or sequences (blocking) and depends on their
    results and on the environment. *)
Inductive script :=
| Ret (r : Z)
| Call (s : nat) (k : Z -> script)
| Ask (k : bool -> script).

(** Monitor.hpp: owner, behaviour, exception sequence (run blocking; an exception sequence of
    its own thread is not modelled). *)
Record mondef := { mowner : nat; mbeh : behaviour; mexc : option nat }.
(** Static part of a BaseSequence: callerStack (BaseSequence.cpp:15-18), monitors, user action. *)
Record seqdef := { sstack : list nat; smons : list nat; sbody : script }.

(** What happens, in order. *)
Inductive ev :=
| VPre (s : nat) (b : bool)      (* checkPreCondition() = b *)
| VAct (s : nat)                 (* action() of s is entered *)
| VRet (s : nat) (r : Z)         (* action() of s returned r *)
| VExit (s : nat) (b : bool)     (* checkExitCondition() = b *)
| VMon (m : nat) (b : bool)      (* condition of monitor m = b *)
| VFire (m : nat)                (* line 126: monitor fired *)
| VHandled (m : nat)             (* lines 133-141: behaviour applied *)
| VRestart (s : nat)             (* line 65: restart sequence *)
| VEnd (s : nat) (r : Z).        (* BaseSequence::action() returns r *)

(** Dynamic part of a BaseSequence; [qbusy]: mtx is locked (line 31). *)
Record qstate := { qphase : phase; qfired : bool; qactive : option nat; qinexc : bool; qbusy : bool }.
Record world := { wq : nat -> qstate; wpos : nat; wlog : list ev }.

(** [Stuck]: the non-recursive mutex is locked again by the same thread (undefined), or a null
    activeMonitor is dereferenced. *)
Inductive result (A : Type) := Fin (a : A) | Stuck | OutOfFuel.
Arguments Fin {A}. Arguments Stuck {A}. Arguments OutOfFuel {A}.
Definition rbind {A B} (x : result A) (f : A -> result B) : result B :=
  match x with Fin a => f a | Stuck => Stuck | OutOfFuel => OutOfFuel end.

Section Exec.
(** The configuration and the environment: the value of the n-th evaluated condition. *)
Variable defs : nat -> seqdef.
Variable mons : nat -> mondef.
Variable orc : nat -> bool.

Definition setq (w : world) (s : nat) (q : qstate) : world :=
  {| wq := upd (wq w) s q; wpos := wpos w; wlog := wlog w |}.
Definition setphase (w : world) (s : nat) (p : phase) : world :=
  let q := wq w s in
  setq w s {| qphase := p; qfired := qfired q; qactive := qactive q; qinexc := qinexc q; qbusy := qbusy q |}.
Definition emit (w : world) (e : ev) : world :=
  {| wq := wq w; wpos := wpos w; wlog := wlog w ++ [e] |}.
(** Evaluate a condition. *)
Definition ask (w : world) (e : bool -> ev) : bool * world :=
  let b := orc (wpos w) in
  (b, {| wq := wq w; wpos := S (wpos w); wlog := wlog w ++ [e b] |}).
Definition ask_silent (w : world) : bool * world :=
  (orc (wpos w), {| wq := wq w; wpos := S (wpos w); wlog := wlog w |}).
(** BaseSequence.cpp:152-156. *)
Definition clear_active (w : world) (s : nat) : world :=
  let q := wq w s in
  setq w s {| qphase := qphase q; qfired := false; qactive := None; qinexc := qinexc q; qbusy := qbusy q |}.
Definition lock (w : world) (s : nat) (b : bool) : world :=
  let q := wq w s in
  setq w s {| qphase := qphase q; qfired := qfired q; qactive := qactive q; qinexc := qinexc q; qbusy := b |}.
(** Lines 127-129. *)
Definition fire (w : world) (m : nat) : world :=
  let o := mowner (mons m) in let q := wq w o in
  emit (setq w o {| qphase := qphase q; qfired := true; qactive := Some m; qinexc := true; qbusy := qbusy q |})
       (VFire m).
(** Lines 133-141. *)
Definition handled (w : world) (m : nat) : world :=
  let o := mowner (mons m) in let q := wq w o in
  emit (setq w o
    match mbeh (mons m) with
    | Resume => {| qphase := Running; qfired := false; qactive := qactive q; qinexc := false; qbusy := qbusy q |}
    | Abort => {| qphase := Aborting; qfired := qfired q; qactive := qactive q; qinexc := false; qbusy := qbusy q |}
    | Restart => {| qphase := Restarting; qfired := qfired q; qactive := qactive q; qinexc := false; qbusy := qbusy q |}
    end) (VHandled m).
(** Lines 99-108: the callers up to the first whose monitor fired are put into aborting. *)
Fixpoint propagate (qs : list nat) (b : behaviour) (w : world) : world :=
  match qs with
  | [] => w
  | s :: qs' =>
    if qfired (wq w s) then w
    else propagate qs' b (match b with Resume => w | _ => setphase w s Aborting end)
  end.

(** BaseSequence::action (23-77) without the single-stepping wait; checkMonitors (86-110) and
    checkMonitor (119-146). *)
Fixpoint loop (n : nat) (s : nat) (ret : Z) (w : world) {struct n} : result (world * Z) :=
  match n with
  | O => OutOfFuel
  | S n =>
    match qphase (wq w s) with
    | Terminated => Fin (emit (lock (setphase w s Idle) s false) (VEnd s ret), ret)
    | Idle =>
      rbind (check n s (clear_active w s)) (fun w1 =>
      match qphase (wq w1 s) with
      | Aborting | Restarting => loop n s ret w1
      | _ => loop n s ret (setphase w1 s Starting)
      end)
    | Starting =>
      let (b, w1) := ask w (VPre s) in
      if b then
        rbind (runscript n (sbody (defs s)) (setphase (emit w1 (VAct s)) s Running)) (fun wr =>
        loop n s (snd wr) (emit (fst wr) (VRet s (snd wr))))
      else loop n s ret (setphase w1 s Terminated)
    | Running =>
      rbind (check n s w) (fun w1 =>
      match qphase (wq w1 s) with
      | Restarting => loop n s ret w1
      | _ =>
        let (b, w2) := ask w1 (VExit s) in
        loop n s ret (if b then setphase w2 s Terminated else w2)
      end)
    | Aborting => loop n s ret (setphase w s Terminated)
    | Restarting => loop n s ret (clear_active (setphase (emit w (VRestart s)) s Starting) s)
    end
  end
with runscript (n : nat) (c : script) (w : world) {struct n} : result (world * Z) :=
  match n with
  | O => OutOfFuel
  | S n =>
    match c with
    | Ret r => Fin (w, r)
    | Ask k => let (b, w1) := ask_silent w in runscript n (k b) w1
    | Call s k => rbind (exec n s w) (fun wr => runscript n (k (snd wr)) (fst wr))
    end
  end
with exec (n : nat) (s : nat) (w : world) {struct n} : result (world * Z) :=
  match n with
  | O => OutOfFuel
  | S n => if qbusy (wq w s) then Stuck else loop n s (-1) (lock w s true)
  end
with check (n : nat) (s : nat) (w : world) {struct n} : result world :=
  match n with
  | O => OutOfFuel
  | S n =>
    rbind (scan n (sstack (defs s)) None w) (fun wa =>
    match snd wa with
    | None => Fin (fst wa)
    | Some a =>
      match qactive (wq (fst wa) a) with
      | None => Stuck
      | Some m => Fin (propagate (sstack (defs s)) (mbeh (mons m)) (fst wa))
      end
    end)
  end
with scan (n : nat) (qs : list nat) (act : option nat) (w : world) {struct n} : result (world * option nat) :=
  match n with
  | O => OutOfFuel
  | S n =>
    match qs with
    | [] => Fin (w, act)
    | q :: qs' =>
      if qinexc (wq w q) then scan n qs' act w
      else rbind (scan_mons n (smons (defs q)) act w) (fun wa => scan n qs' (snd wa) (fst wa))
    end
  end
with scan_mons (n : nat) (ms : list nat) (act : option nat) (w : world) {struct n} : result (world * option nat) :=
  match n with
  | O => OutOfFuel
  | S n =>
    match ms with
    | [] => Fin (w, act)
    | m :: ms' =>
      let (b, w1) := ask w (VMon m) in
      if b then
        if qfired (wq w1 (mowner (mons m))) then scan_mons n ms' (Some (mowner (mons m))) w1
        else
          rbind (match mexc (mons m) with
                 | None => Fin (fire w1 m, 0)
                 | Some e => exec n e (fire w1 m)
                 end) (fun wr =>
          scan_mons n ms' (Some (mowner (mons m))) (handled (fst wr) m))
      else scan_mons n ms' act w1
    end
  end.
End Exec.

(** Fresh objects (BaseSequence.hpp member initialisers; activeMonitor is uninitialised but not
    read before a monitor fired). *)
Definition world_new : world :=
  {| wq := fun _ => {| qphase := Idle; qfired := false; qactive := None; qinexc := false; qbusy := false |};
     wpos := 0; wlog := [] |}.

(** ** callerStack (BaseSequence.cpp:15-18) *)
Definition stack_new (self : nat) (caller : option (list nat)) (blocking : bool) : list nat :=
  match caller, blocking with
  | Some st, true => self :: st
  | _, _ => [self]
  end.

(** ** ConditionTimeout.hpp *)
(** Clock in nanoseconds (steady_clock on the supported platform). *)
Record ctimeout (N : num) := { ctimeout_s : N; cstarted : bool; cstart_ns : Z }.
Arguments ctimeout_s {N}. Arguments cstarted {N}. Arguments cstart_ns {N}.
Definition ct_new (N : num) : ctimeout N := {| ctimeout_s := nofZ N 0; cstarted := false; cstart_ns := 0 |}.
(** Lines 26-29 at time [now]. *)
Definition ct_reset {N : num} (c : ctimeout N) (now : Z) : ctimeout N :=
  {| ctimeout_s := ctimeout_s c; cstarted := true; cstart_ns := now |}.
Definition ct_set {N : num} (c : ctimeout N) (t : N) : ctimeout N :=
  {| ctimeout_s := t; cstarted := cstarted c; cstart_ns := cstart_ns c |}.
(** Lines 14-23; duration_cast truncates to milliseconds. *)
Definition ct_validate {N : num} (c : ctimeout N) (now : Z) : ctimeout N * bool :=
  if neqb N (ctimeout_s c) (nofZ N 0) then (c, false)
  else if negb (cstarted c) then (ct_reset c now, false)
  else (c, nltb N (nmul N (ctimeout_s c) (nofZ N 1000)) (nofZ N (Z.quot (now - cstart_ns c) 1000000))).
Inductive ctop := CTEval (now : Z) | CTReset (now : Z).
Fixpoint ct_runs {N : num} (c : ctimeout N) (os : list ctop) : ctimeout N * list bool :=
  match os with
  | [] => (c, [])
  | CTEval t :: os' => let (c1, b) := ct_validate c t in
                       let (c2, bs) := ct_runs c1 os' in (c2, b :: bs)
  | CTReset t :: os' => ct_runs (ct_reset c t) os'
  end.

(** ** Wait.hpp:35-39: exit condition; times as double seconds *)
Definition wait_exit (N : num) (waiting start now : N) : bool := nltb N waiting (nsub N now start).

(** ** Sequencer registry (Sequence.cpp:15-26, Sequencer.cpp:21-49) *)
Record registry := { rcount : Z; rlist : list (nat * Z * string) }. (* object, id, name; oldest first *)
Definition reg_new : registry := {| rcount := 0; rlist := [] |}.
Definition reg_add (r : registry) (o : nat) (name : string) : outcome registry :=
  if String.eqb name "" then Fault
  else if existsb (fun x => String.eqb name (snd x)) (rlist r) then Fault
  else Ok {| rcount := rcount r + 1; rlist := rlist r ++ [(o, rcount r, name)] |}.
Definition reg_by_id (r : registry) (i : Z) : option nat :=
  match find (fun x => i =? snd (fst x)) (rlist r) with Some x => Some (fst (fst x)) | None => None end.
Definition reg_by_name (r : registry) (n : string) : option nat :=
  match find (fun x => String.eqb n (snd x)) (rlist r) with Some x => Some (fst (fst x)) | None => None end.
Definition reg_clear (r : registry) : registry := reg_new.
(** A registration that throws leaves the registry unchanged. *)
Inductive regop := RAdd (o : nat) (name : string) | RClear.
Definition reg_step (r : registry) (o : regop) : registry :=
  match o with
  | RAdd x n => match reg_add r x n with Ok r' => r' | _ => r end
  | RClear => reg_clear r
  end.
Definition reg_runs (os : list regop) : registry := fold_left reg_step os reg_new.

(** ** Single stepping (BaseSequence.cpp:26-30, Sequencer.cpp:51-62) *)
(** [kpassed]: number of steps that passed the gate. *)
Record stepper := { kstepping : bool; knext : bool; krunning : bool; kpassed : Z }.
Inductive kop := KStepping | KStep | KRestart | KStop (* running = false *) | KGate (* a step tries to pass *).
Definition k_step (s : stepper) (o : kop) : stepper :=
  match o with
  | KStepping => {| kstepping := true; knext := knext s; krunning := krunning s; kpassed := kpassed s |}
  | KStep => {| kstepping := kstepping s; knext := true; krunning := krunning s; kpassed := kpassed s |}
  | KRestart => {| kstepping := false; knext := true; krunning := krunning s; kpassed := kpassed s |}
  | KStop => {| kstepping := kstepping s; knext := knext s; krunning := false; kpassed := kpassed s |}
  | KGate =>
    if kstepping s then
      if krunning s && negb (knext s) then s (* keeps waiting *)
      else {| kstepping := true; knext := false; krunning := krunning s; kpassed := kpassed s + 1 |}
    else {| kstepping := false; knext := knext s; krunning := krunning s; kpassed := kpassed s + 1 |}
  end.
Definition k_runs (s : stepper) (os : list kop) : stepper := fold_left k_step os s.
Definition stepper_new : stepper := {| kstepping := false; knext := false; krunning := true; kpassed := 0 |}.

(** ** Sequencer::abort and Sequence::start: the abort condition (Sequencer.cpp:72-78,
    Sequence.cpp:43-47, ConditionAbort.hpp) *)
Inductive abop := ABAbortAll | ABStart (s : nat).
(** conditionAbort flag of every registered sequence. *)
Definition ab_step (f : nat -> bool) (o : abop) : nat -> bool :=
  match o with ABAbortAll => fun _ => true | ABStart s => upd f s false end.
Definition ab_runs (os : list abop) : nat -> bool := fold_left ab_step os (fun _ => false).
