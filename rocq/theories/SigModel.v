(** Signal handlers which call SafetySystem::exitHandler: SafetySystem.hpp 57-61, SafetySystem.cpp 49-71, 83, 118 and 125-128,
    the handlers of the examples (MockRobotExample.cpp 21-27, SystemTest2.cpp 123-128, CANexample2.cpp 15-21, TraceTest.cpp
    78-83).
    A handler runs in one of the threads, at any point of whatever this thread is doing, and the interrupted call does not
    continue before the handler has returned.  A signal is blocked in the thread that handles it (signal(3) of glibc).
    Simplifications: exitFunction is triggerEvent of one event in the private context, as in all examples; the counters of
    activations are left out; the reading of the unprotected members is atomic. *)
From Verif Require Import Prelude SafetyModel.
Local Open Scope nat_scope.

(** Where a call is. *)
Inductive pos :=
| PIn                            (* inside a function of the library that is not async-signal-safe, e.g. malloc *)
| PRead (e : evid) (priv : bool) (* SafetySystem.cpp 50-52: the destination at the current level *)
| PLock (d : lref)               (* 55 *)
| PTest (d : lref)               (* 56, 59 *)
| PWrite (d : lref) (w : bool)   (* 57, 60 *)
| PUnlock                        (* 63 *)
| PLogB | PLogE.                 (* 64, 66: a message is built and written; begin and end *)

(** What a thread is doing and the handler on top of it. *)
Record thr := { body : option pos; hnd : option pos }.
(** Level, pending level, owner of mtx, threads.  Thread 0 runs the safety system. *)
Record st := { cur : lref; nxt : lref; own : option nat; th : nat -> thr }.

Definition w_nxt d s := {| cur := cur s; nxt := d; own := own s; th := th s |}.
Definition w_own o s := {| cur := cur s; nxt := nxt s; own := o; th := th s |}.
Definition w_body t f s := {| cur := cur s; nxt := nxt s; own := own s;
  th := upd (th s) t {| body := f; hnd := hnd (th s t) |} |}.
Definition w_hnd t f s := {| cur := cur s; nxt := nxt s; own := own s;
  th := upd (th s) t {| body := body (th s t); hnd := f |} |}.

(** A step of a call in thread [t]; [below]: the call it has interrupted.  [None]: it waits.  Locking a mutex again in the
    same thread is undefined ([thread.mutex.class]); a handler that has interrupted a function which is not async-signal-safe
    must not call such a function (signal-safety(7)); building a message allocates memory. *)
Definition call_step (h : heap) (t : nat) (f : pos) (below : option pos) (s : st) : option (outcome (st * option pos)) :=
  match f with
  | PIn => Some (Ok (s, None))
  | PRead e p => Some (Ok (s, Some (match getDestLevelForEvent (h (cur s)) e p with Some d => PLock d | None => PLogB end)))
  | PLock d =>
    match own s with
    | None => Some (Ok (w_own (Some t) s, Some (PTest d)))
    | Some o => if Nat.eqb o t then Some UB else None
    end
  | PTest d => Some (Ok (s, Some (PWrite d (Nat.eqb (nxt s) (cur s) || (lid (h d) <? lid (h (nxt s)))%Z))))
  | PWrite d w => Some (Ok (if w then w_nxt d s else s, Some PUnlock))
  | PUnlock => Some (Ok (w_own None s, Some PLogB))
  | PLogB => match below with Some PIn | Some PLogE => Some UB | _ => Some (Ok (s, Some PLogE)) end
  | PLogE => Some (Ok (s, None))
  end.

(** [LCall t e p]: thread [t] calls triggerEvent; [LLib t]: it calls another function of the library; [LStep t]: it goes on;
    [LSig t]: the signal is delivered to it; [LCycle]: lines 83 and 118 of run(). *)
Inductive label := LCall (t : nat) (e : evid) (p : bool) | LLib (t : nat) | LStep (t : nat) | LSig (t : nat) | LCycle.

(** Nothing running in a thread. *)
Definition idle (x : thr) : bool := match body x, hnd x with None, None => true | _, _ => false end.

(** [x]: the event of exitFunction. *)
Definition step (h : heap) (x : evid) (l : label) (s : st) : option (outcome st) :=
  match l with
  | LCall t e p => if idle (th s t) then Some (Ok (w_body t (Some (PRead e p)) s)) else None
  | LLib t => if idle (th s t) then Some (Ok (w_body t (Some PIn) s)) else None
  | LStep t =>
    match hnd (th s t), body (th s t) with
    | Some f, b => option_map (omap (fun r => w_hnd t (snd r) (fst r))) (call_step h t f b s)
    | None, Some f => option_map (omap (fun r => w_body t (snd r) (fst r))) (call_step h t f None s)
    | None, None => None
    end
  | LSig t => match hnd (th s t) with None => Some (Ok (w_hnd t (Some (PRead x true)) s)) | Some _ => None end
  | LCycle =>
    if idle (th s 0) then Some (Ok {| cur := nxt s; nxt := nxt s; own := own s; th := th s |}) else None
  end.

Fixpoint steps (h : heap) (x : evid) (ls : list label) (s : st) : option (outcome st) :=
  match ls with
  | [] => Some (Ok s)
  | l :: ls => match step h x l s with Some (Ok s') => steps h x ls s' | r => r end
  end.

(** SafetySystem.cpp 40-42: at the entry level. *)
Definition start (c : lref) : st := {| cur := c; nxt := c; own := None; th := fun _ => {| body := None; hnd := None |} |}.
