(** Sequences with a thread of their own (blocking = false): Sequence.cpp 28-64, Sequencer.cpp 21-24, 64-78,
    ConditionAbort.hpp.  The body of a run, BaseSequence::action(), is modelled in [SeqModel]; here a run only waits for
    the mutex, is active (calling start(), wait(), abort() of sequences), notices an abort request and ends. *)
From Verif Require Import Prelude.
Open Scope nat_scope.

(** One run, i.e. one thread created by std::async (53).  [Queued] waits for mtx (BaseSequence.cpp 31); [Active ab] holds
    it, [ab]: an abort request was noticed by checkMonitors; [Ended r] the thread returned r (40). *)
Inductive rst := Queued | Active (ab : bool) | Ended (r : Z).
(** A sequence: all its runs, fut (run number, None: not valid), retVal (None: never assigned), ConditionAbort::abort. *)
Record sst := { q_runs : list rst; q_fut : option nat; q_ret : option Z; q_abort : bool }.
(** Who calls: None is the main program, Some (j, m) run m of sequence j. *)
Definition caller := option (nat * nat).
(** [w_asg]: callers which are in the assignment to fut of line 53, with sequence and new run: the assignment releases the
    shared state of the old future, which came from std::async, and hence waits for the end of its thread.
    [w_wait]: the main program is in Sequencer::wait(), list of the sequences still to do.
    [w_race]: fut was accessed by two threads at the same time (undefined behaviour). *)
Record world := { w_seq : nat -> sst; w_asg : list (caller * nat * nat); w_wait : option (list nat); w_race : bool }.
Definition sst0 : sst := {| q_runs := []; q_fut := None; q_ret := None; q_abort := false |}.
Definition world0 : world := {| w_seq := fun _ => sst0; w_asg := []; w_wait := None; w_race := false |}.

Inductive op :=
| OStart (c : caller) (i : nat)     (* start(), lines 43-56, up to the assignment *)
| OReturn (c : caller)              (* the assignment has waited for the old thread *)
| OBegin (i n : nat)                (* run n gets the mutex *)
| OCheck (i n : nat)                (* checkMonitors with the abort monitor *)
| OEnd (i n : nat) (r : Z)          (* the thread ends *)
| OWait (c : caller) (i : nat)      (* Sequence::wait(), 62-64 *)
| OAbort (i : nat)                  (* BaseSequence::abort() *)
| OWaitAll (l : list nat)           (* Sequencer::wait(), Sequencer.cpp 64-69: begin; l is sequenceList *)
| OWaitNext.                        (* one round of its loop, or its end *)

Definition caller_eqb (a b : caller) : bool :=
  match a, b with
  | None, None => true
  | Some (i, n), Some (j, m) => (i =? j) && (n =? m)
  | _, _ => false
  end.
Definition in_asg (c : caller) (l : list (caller * nat * nat)) : bool := existsb (fun e => caller_eqb (fst (fst e)) c) l.
Definition is_active (s : rst) : bool := match s with Active _ => true | _ => false end.
Definition is_ended (s : rst) : bool := match s with Ended _ => true | _ => false end.
(** The thread of the caller is at a place where it can call something. *)
Definition can_act (w : world) (c : caller) : bool :=
  negb (in_asg c (w_asg w)) &&
  match c with
  | None => match w_wait w with None => true | Some _ => false end
  | Some (j, m) => match nth_error (q_runs (w_seq w j)) m with Some s => is_active s | None => false end
  end.
Fixpoint set_run (l : list rst) (n : nat) (s : rst) : list rst :=
  match l, n with [], _ => [] | _ :: l, O => s :: l | x :: l, S n => x :: set_run l n s end.
Definition set_seq (w : world) (i : nat) (s : sst) : world :=
  {| w_seq := upd (w_seq w) i s; w_asg := w_asg w; w_wait := w_wait w; w_race := w_race w |}.
(** Whether the thread of the future has ended (or there is none). *)
Definition fut_free (s : sst) : bool :=
  match q_fut s with
  | None => true
  | Some n => match nth_error (q_runs s) n with Some r => is_ended r | None => false end
  end.
(** Sequence::wait(): None while the thread has not ended. *)
Definition do_wait (s : sst) : option sst :=
  match q_fut s with
  | None => Some s
  | Some n => match nth_error (q_runs s) n with
    | Some (Ended r) => Some {| q_runs := q_runs s; q_fut := None; q_ret := Some r; q_abort := q_abort s |}
    | _ => None
    end
  end.
(** start() resets the abort request (46), creates the thread and assigns its future; another thread at the same fut is a
    data race. *)
Definition do_start (w : world) (c : caller) (i : nat) : world :=
  let s := w_seq w i in
  let new := length (q_runs s) in
  let race := w_race w || existsb (fun e => snd (fst e) =? i) (w_asg w) ||
              match w_wait w with Some (k :: _) => k =? i | _ => false end in
  if fut_free s
  then {| w_seq := upd (w_seq w) i {| q_runs := q_runs s ++ [Queued]; q_fut := Some new; q_ret := q_ret s; q_abort := false |};
          w_asg := w_asg w; w_wait := w_wait w; w_race := race |}
  else {| w_seq := upd (w_seq w) i {| q_runs := q_runs s ++ [Queued]; q_fut := q_fut s; q_ret := q_ret s; q_abort := false |};
          w_asg := (c, i, new) :: w_asg w; w_wait := w_wait w; w_race := race |}.
(** One step; None: it cannot happen now. *)
Definition step (w : world) (o : op) : option world :=
  match o with
  | OStart c i => if can_act w c then Some (do_start w c i) else None
  | OReturn c =>
    match find (fun e => caller_eqb (fst (fst e)) c) (w_asg w) with
    | Some (_, i, n) =>
      let s := w_seq w i in
      if fut_free s
      then Some {| w_seq := upd (w_seq w) i {| q_runs := q_runs s; q_fut := Some n; q_ret := q_ret s; q_abort := q_abort s |};
                   w_asg := filter (fun e => negb (caller_eqb (fst (fst e)) c)) (w_asg w);
                   w_wait := w_wait w; w_race := w_race w |}
      else None
    | None => None
    end
  | OBegin i n =>
    let s := w_seq w i in
    match nth_error (q_runs s) n with
    | Some Queued => if existsb is_active (q_runs s) then None
        else Some (set_seq w i {| q_runs := set_run (q_runs s) n (Active false); q_fut := q_fut s; q_ret := q_ret s; q_abort := q_abort s |})
    | _ => None
    end
  | OCheck i n =>
    let s := w_seq w i in
    match nth_error (q_runs s) n with
    | Some (Active ab) => if in_asg (Some (i, n)) (w_asg w) then None
        else Some (set_seq w i {| q_runs := set_run (q_runs s) n (Active (ab || q_abort s)); q_fut := q_fut s; q_ret := q_ret s; q_abort := q_abort s |})
    | _ => None
    end
  | OEnd i n r =>
    let s := w_seq w i in
    match nth_error (q_runs s) n with
    | Some (Active _) => if in_asg (Some (i, n)) (w_asg w) then None
        else Some (set_seq w i {| q_runs := set_run (q_runs s) n (Ended r); q_fut := q_fut s; q_ret := q_ret s; q_abort := q_abort s |})
    | _ => None
    end
  | OWait c i => if can_act w c then match do_wait (w_seq w i) with Some s => Some (set_seq w i s) | None => None end else None
  | OAbort i => let s := w_seq w i in
      Some (set_seq w i {| q_runs := q_runs s; q_fut := q_fut s; q_ret := q_ret s; q_abort := true |})
  | OWaitAll l => if can_act w None
      then Some {| w_seq := w_seq w; w_asg := w_asg w; w_wait := Some l; w_race := w_race w |} else None
  | OWaitNext =>
    match w_wait w with
    | None => None
    | Some [] => Some {| w_seq := w_seq w; w_asg := w_asg w; w_wait := None; w_race := w_race w |}
    | Some (i :: l) => match do_wait (w_seq w i) with
      | Some s => Some {| w_seq := upd (w_seq w) i s; w_asg := w_asg w; w_wait := Some l; w_race := w_race w |}
      | None => None
      end
    end
  end.
Fixpoint run (w : world) (os : list op) : option world :=
  match os with [] => Some w | o :: os => match step w o with None => None | Some w => run w os end end.

(** *** The list of all sequences, Sequencer.cpp 21-24 and Sequence.cpp 12-26: a sequence enters it when constructed and
    never leaves it; Sequencer::wait(), abort() and the next constructor (17-19) use every element of the list. *)
Record reg := { g_list : list nat; g_dead : list nat }.
Definition reg0 : reg := {| g_list := []; g_dead := [] |}.
Inductive gop := GNew (s : nat) | GDel (s : nat) | GUse.
(** Whether an element of the list was destroyed. *)
Definition dangling (g : reg) : bool := existsb (fun s => existsb (Nat.eqb s) (g_dead g)) (g_list g).
Definition reg_step (g : reg) (o : gop) : outcome reg :=
  match o with
  | GNew s => if dangling g then UB else Ok {| g_list := g_list g ++ [s]; g_dead := g_dead g |}
  | GDel s => Ok {| g_list := g_list g; g_dead := s :: g_dead g |}
  | GUse => if dangling g then UB else Ok g
  end.
Fixpoint reg_run (g : reg) (os : list gop) : outcome reg :=
  match os with [] => Ok g | o :: os => bind (reg_step g o) (fun g => reg_run g os) end.
