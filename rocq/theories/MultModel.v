(** The program examples/devel/multithreading.cpp: two threads use one Gain block; each step is one access to shared data, the threads
    are interleaved in any order, memory is sequentially consistent.  [n] elements (MN in the program), [r] rounds (NO_OF_RUNS).
    The limits of the gain are the largest values (Gain.hpp 60-62), so setGain accepts both matrices; the sleeping main thread is
    a thread which is not scheduled. *)
From Verif Require Import Prelude.
Local Open Scope nat_scope.

(** multithreading.cpp 18-19. *)
Definition A : nat := 10.
Definition B : nat := 11.

(** The main thread in round [i] (multithreading.cpp 58-87) and after the loop (93-94). *)
Inductive mpc :=
| MLock (i : nat)             (* 60: setGain, Gain.hpp 220 *)
| MSet (i k : nat)            (* Gain.hpp 226: element k of the gain is copied *)
| MReady (i : nat)            (* 61 *)
| MRunLock (i : nat)          (* 63: run, Gain.hpp 108 *)
| MRun (i k : nat)            (* Gain.hpp 134-137: element k of the product *)
| MClear (i : nat)            (* 64 *)
| MCheck (i : nat)            (* 66-86, data of the main thread only *)
| MEnd                        (* 93 *)
| MJoin                       (* 94 *)
| MDone.
(** The other thread in round [j] (multithreading.cpp 47-53). *)
Inductive tpc :=
| TSpin (j : nat)             (* 50 *)
| TLock (j : nat)             (* 51: setGain, Gain.hpp 220 *)
| TSet (j k : nat)            (* Gain.hpp 226 *)
| TDone.

(** [mtx]: who holds the mutex of the gain, [true] for the main thread; [failed]: noOfFailedRuns; [msgs]: lines 81-82 were executed. *)
Record st := { mp : mpc; tp : tpc; ready : bool; mtx : option bool; gain : nat -> nat; out : nat -> nat; failed : nat; msgs : nat }.

(** The loops in lines 58 and 48. *)
Definition mnext (r i : nat) : mpc := if i <? r then MLock i else MEnd.
Definition tnext (r j : nat) : tpc := if j <? r then TSpin j else TDone.
(** multithreading.cpp 25-45: the gain is constructed with the matrix of A; the output is not yet written (here 0). *)
Definition init (r : nat) : st := {| mp := mnext r 0; tp := tnext r 0; ready := false; mtx := None; gain := fun _ => A; out := fun _ => 0;
  failed := 0; msgs := 0 |}.

Definition w_main p x m g o s := {| mp := p; tp := tp s; ready := x; mtx := m; gain := g; out := o; failed := failed s; msgs := msgs s |}.
Definition w_count p f m s := {| mp := p; tp := tp s; ready := ready s; mtx := mtx s; gain := gain s; out := out s; failed := f; msgs := m |}.
Definition w_other p m g s := {| mp := mp s; tp := p; ready := ready s; mtx := m; gain := g; out := out s; failed := failed s; msgs := msgs s |}.

(** multithreading.cpp 66-86: the first element which is not the expected one. *)
Definition wrong (n : nat) (o : nat -> nat) : option nat := find (fun j => negb (o j =? S j * A)) (seq 0 n).

(** multithreading.cpp 58-94; element k of the input is k + 1 (lines 33-35). *)
Definition main (n r : nat) (s : st) : st :=
  match mp s with
  | MLock i => match mtx s with None => w_main (MSet i 0) (ready s) (Some true) (gain s) (out s) s | Some _ => s end
  | MSet i k => if k <? n then w_main (MSet i (S k)) (ready s) (mtx s) (upd (gain s) k A) (out s) s
                else w_main (MReady i) (ready s) None (gain s) (out s) s
  | MReady i => w_main (MRunLock i) true (mtx s) (gain s) (out s) s
  | MRunLock i => match mtx s with None => w_main (MRun i 0) (ready s) (Some true) (gain s) (out s) s | Some _ => s end
  | MRun i k => if k <? n then w_main (MRun i (S k)) (ready s) (mtx s) (gain s) (upd (out s) k (S k * gain s k)) s
                else w_main (MClear i) (ready s) None (gain s) (out s) s
  | MClear i => w_main (MCheck i) false (mtx s) (gain s) (out s) s
  | MCheck i => match wrong n (out s) with
                | None => w_count (mnext r (S i)) (failed s) (msgs s) s
                | Some j => w_count (mnext r (S i)) (S (failed s)) (if out s j =? B then msgs s else S (msgs s)) s
                end
  | MEnd => w_main MJoin true (mtx s) (gain s) (out s) s
  | MJoin => match tp s with TDone => w_main MDone (ready s) (mtx s) (gain s) (out s) s | _ => s end
  | MDone => s
  end.
(** multithreading.cpp 47-53. *)
Definition other (n r : nat) (s : st) : st :=
  match tp s with
  | TSpin j => if ready s then w_other (TLock j) (mtx s) (gain s) s else s
  | TLock j => match mtx s with None => w_other (TSet j 0) (Some false) (gain s) s | Some _ => s end
  | TSet j k => if k <? n then w_other (TSet j (S k)) (mtx s) (upd (gain s) k B) s
                else w_other (tnext r (S j)) None (gain s) s
  | TDone => s
  end.
Definition step (n r : nat) (l : bool) (s : st) : st := if l then main n r s else other n r s.
Fixpoint steps (n r : nat) (ls : list bool) (s : st) : st := match ls with [] => s | l :: t => steps n r t (step n r l s) end.
