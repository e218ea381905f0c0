(** The program examples/block/TransitionBlockTest.cpp: a slow and a fast time domain with a transition in each direction.  The
    threads are interleaved in any order; each label is one access to data shared by the threads.
    [N]: the ratio of the periods (100 in the program).  Values are exact: those of the slow domain in nanoseconds (the constant is
    1), those of the fast domain in [1/N] nanoseconds.  [None]: NaN.  Simplifications: [count] does not overflow, and dTime is
    exact. *)
From Verif Require Import Prelude.
Local Open Scope Z_scope.

(** A signal: value and time stamp. *)
Definition sig := (option Z * Z)%type.

(** A signal of the fast domain with the number of slow signals which were known when it was computed. *)
Record sample := { sval : option Z; sts : Z; sgen : nat }.

(** Where the fast thread is: HarmonicTaskList.cpp 6-9 with TransitionBlockTest.cpp 36-37 and 41. *)
Inductive fpc :=
| F0    (* t1.outBlock, Transition.hpp 122: refresh? *)
| F1    (* 123-130 *)
| F2    (* 132-136 *)
| F3    (* t2.inBlock, 95-98 *)
| F4.   (* Harmonic.cpp 16-21: the slow thread *)

(** Where the slow thread is: Async.cpp 58-64 with TransitionBlockTest.cpp 33-35 and 38. *)
Inductive spc :=
| S0    (* semaphore.wait *)
| S1    (* c1 *)
| S2    (* i1 *)
| S3    (* t1.inBlock, Transition.hpp 89-93 *)
| S4.   (* t2.outBlock, 138-147 *)

(** [clk] System::getTimeNs; [cts] time stamp of c1; [ifirst], [iprev] the integrator; [torg] time stamp of its first run;
    [tin], [tprev], [refresh]: Transition t1 (Transition.hpp 68-69); [oin], [oprev], [dV], [dT], [cnt]: its out block (155-158),
    [dset]: dVal and dTime have been written; [osig] its output; [buf]: Transition t2 (67); [hk] of Harmonic; [sem] of Async;
    [nsig]: signals given to t1; [seen]: those known to its out block; [outs]: outputs of t2. *)
Record st := {
  clk : Z; cts : Z; ifirst : bool; iprev : sig; torg : Z; tin : sig; tprev : sig; refresh : bool;
  oin : sig; oprev : sig; dV : option Z; dT : Z; dset : bool; cnt : Z; osig : sample; buf : list sample; hk : nat; sem : nat;
  fp : fpc; sp : spc; nsig : nat; seen : nat; outs : list sample }.

(** Signal.hpp 118-180: clear. *)
Definition clear : sig := (None, 0).

(** TransitionBlockTest.cpp 23-43 (setInitCondition(0)); Transition.hpp 42-54 and 112.  [z]: the indeterminate dTime. *)
Definition init (z : Z) : st :=
  {| clk := 0; cts := 0; ifirst := true; iprev := (Some 0, 0); torg := 0; tin := clear; tprev := clear; refresh := false;
     oin := clear; oprev := clear; dV := None; dT := z; dset := false; cnt := 0; osig := {| sval := None; sts := 0; sgen := 0 |};
     buf := []; hk := 0; sem := 0; fp := F0; sp := S0; nsig := 0; seen := 0; outs := [] |}.

(** Steps of the fast thread change these ... *)
Definition w_fast (p : fpc) s := {| clk := clk s; cts := cts s; ifirst := ifirst s; iprev := iprev s; torg := torg s; tin := tin s;
  tprev := tprev s; refresh := refresh s; oin := oin s; oprev := oprev s; dV := dV s; dT := dT s; dset := dset s; cnt := cnt s;
  osig := osig s; buf := buf s; hk := hk s; sem := sem s; fp := p; sp := sp s; nsig := nsig s; seen := seen s; outs := outs s |}.
Definition w_take dv s := {| clk := clk s; cts := cts s; ifirst := ifirst s; iprev := iprev s; torg := torg s; tin := tin s;
  tprev := tprev s; refresh := false; oin := tin s; oprev := tprev s; dV := dv; dT := snd (tin s) - snd (tprev s); dset := true;
  cnt := 0; osig := osig s; buf := buf s; hk := hk s; sem := sem s; fp := F2; sp := sp s; nsig := nsig s; seen := nsig s;
  outs := outs s |}.
Definition w_osig x s := {| clk := clk s; cts := cts s; ifirst := ifirst s; iprev := iprev s; torg := torg s; tin := tin s;
  tprev := tprev s; refresh := refresh s; oin := oin s; oprev := oprev s; dV := dV s; dT := dT s; dset := dset s; cnt := cnt s + 1;
  osig := x; buf := buf s; hk := hk s; sem := sem s; fp := F3; sp := sp s; nsig := nsig s; seen := seen s; outs := outs s |}.
Definition w_buf b s := {| clk := clk s; cts := cts s; ifirst := ifirst s; iprev := iprev s; torg := torg s; tin := tin s;
  tprev := tprev s; refresh := refresh s; oin := oin s; oprev := oprev s; dV := dV s; dT := dT s; dset := dset s; cnt := cnt s;
  osig := osig s; buf := b; hk := hk s; sem := sem s; fp := fp s; sp := sp s; nsig := nsig s; seen := seen s; outs := outs s |}.
Definition w_post k n s := {| clk := clk s; cts := cts s; ifirst := ifirst s; iprev := iprev s; torg := torg s; tin := tin s;
  tprev := tprev s; refresh := refresh s; oin := oin s; oprev := oprev s; dV := dV s; dT := dT s; dset := dset s; cnt := cnt s;
  osig := osig s; buf := buf s; hk := k; sem := n; fp := F0; sp := sp s; nsig := nsig s; seen := seen s; outs := outs s |}.
(** ... those of the slow thread and of the clock these. *)
Definition w_slow n p s := {| clk := clk s; cts := cts s; ifirst := ifirst s; iprev := iprev s; torg := torg s; tin := tin s;
  tprev := tprev s; refresh := refresh s; oin := oin s; oprev := oprev s; dV := dV s; dT := dT s; dset := dset s; cnt := cnt s;
  osig := osig s; buf := buf s; hk := hk s; sem := n; fp := fp s; sp := p; nsig := nsig s; seen := seen s; outs := outs s |}.
Definition w_clk c t p s := {| clk := c; cts := t; ifirst := ifirst s; iprev := iprev s; torg := torg s; tin := tin s;
  tprev := tprev s; refresh := refresh s; oin := oin s; oprev := oprev s; dV := dV s; dT := dT s; dset := dset s; cnt := cnt s;
  osig := osig s; buf := buf s; hk := hk s; sem := sem s; fp := fp s; sp := p; nsig := nsig s; seen := seen s; outs := outs s |}.
Definition w_int v o s := {| clk := clk s; cts := cts s; ifirst := false; iprev := (v, cts s); torg := o; tin := tin s;
  tprev := tprev s; refresh := refresh s; oin := oin s; oprev := oprev s; dV := dV s; dT := dT s; dset := dset s; cnt := cnt s;
  osig := osig s; buf := buf s; hk := hk s; sem := sem s; fp := fp s; sp := S3; nsig := nsig s; seen := seen s; outs := outs s |}.
Definition w_give s := {| clk := clk s; cts := cts s; ifirst := ifirst s; iprev := iprev s; torg := torg s; tin := iprev s;
  tprev := tin s; refresh := true; oin := oin s; oprev := oprev s; dV := dV s; dT := dT s; dset := dset s; cnt := cnt s;
  osig := osig s; buf := buf s; hk := hk s; sem := sem s; fp := fp s; sp := S4; nsig := S (nsig s); seen := seen s; outs := outs s |}.
Definition w_outs x s := {| clk := clk s; cts := cts s; ifirst := ifirst s; iprev := iprev s; torg := torg s; tin := tin s;
  tprev := tprev s; refresh := refresh s; oin := oin s; oprev := oprev s; dV := dV s; dT := dT s; dset := dset s; cnt := cnt s;
  osig := osig s; buf := []; hk := hk s; sem := sem s; fp := fp s; sp := S0; nsig := nsig s; seen := seen s; outs := outs s ++ [x] |}.

(** Sums of doubles with NaN. *)
Definition lift2 (f : Z -> Z -> Z) (a b : option Z) : option Z :=
  match a, b with Some x, Some y => Some (f x y) | _, _ => None end.

(** Transition.hpp 132-134: value in [1/N] ns, time stamp truncated to ns. *)
Definition interpolate (N : nat) (s : st) : sample :=
  {| sval := lift2 (fun p d => Z.of_nat N * p + d * cnt s) (fst (oprev s)) (dV s);
     sts := (Z.of_nat N * snd (oprev s) + cnt s * dT s) / Z.of_nat N; sgen := seen s |}.

(** The fast thread. *)
Definition fast (N : nat) (s : st) : st :=
  match fp s with
  | F0 => w_fast (if refresh s then F1 else F2) s
  | F1 => w_take (lift2 Z.sub (fst (tin s)) (fst (tprev s))) s
  | F2 => w_osig (interpolate N s) s
  | F3 => w_fast F4 (w_buf (buf s ++ [osig s]) s)
  | F4 => if (N <=? S (hk s))%nat then w_post 0 (S (sem s)) s else w_post (S (hk s)) (sem s) s
  end.

(** Transition.hpp 140-143: the place in the buffer. *)
Fixpoint older (time : Z) (b : list sample) : nat :=
  match b with [] => 0%nat | x :: r => if sts x <? time then S (older time r) else 0%nat end.
Definition place (time : Z) (b : list sample) : nat := pred (older time b).

(** The slow thread; I.hpp 54-74 with the constant 1 (the limits are not reached). *)
Definition slow (s : st) : outcome st :=
  match sp s with
  | S0 => match sem s with O => Ok s | S n => Ok (w_slow n S1 s) end
  | S1 => Ok (w_clk (clk s) (clk s) S2 s)
  | S2 => if ifirst s then Ok (w_int (fst (iprev s)) (cts s) s)
          else Ok (w_int (lift2 Z.add (fst (iprev s)) (Some (cts s - snd (iprev s)))) (torg s) s)
  | S3 => Ok (w_give s)
  | S4 => match nth_error (buf s) (place (cts s) (buf s)) with Some x => Ok (w_outs x s) | None => UB end
  end.

(** [LClk d]: time passes. *)
Inductive label := LFast | LSlow | LClk (d : nat).
Definition step (N : nat) (l : label) (s : st) : outcome st :=
  match l with
  | LFast => Ok (fast N s)
  | LSlow => slow s
  | LClk d => Ok (w_clk (clk s + Z.of_nat d) (cts s) (sp s) s)
  end.
Fixpoint steps (N : nat) (ls : list label) (s : st) : outcome st :=
  match ls with [] => Ok s | l :: r => bind (step N l s) (steps N r) end.
