(** The trace block with the thread which writes it to a file (includes/eeros/control/Trace.hpp), and the program
    examples/block/TraceTest.cpp.  The threads are interleaved in any order; each label is one access to data shared by the threads.
    A sample stands for the number of the run which took it: the value and the time stamp of one run carry the same number.
    [None]: an indeterminate value. *)
From Verif Require Import Prelude.

(** Where the time domain thread is in Trace::run: Trace.hpp 38-48. *)
Inductive tpc :=
| TRun      (* 39-40: enabled?  the value *)
| TStamp    (* 41: the time stamp *)
| TInc      (* 42 *)
| TWrap     (* 43-44 *)
| TCyc.     (* 45 *)

(** Where the construction of the writer is: Trace.hpp 105-106 and 111 (the thread runs since Thread.cpp 9-19). *)
Inductive cpc :=
| CBase     (* the base class is constructed, the thread is started *)
| CRun      (* the object is a TraceWriter; next: running = false *)
| CGo       (* next: go = false *)
| CDone.

(** An array got from new: its length and the elements written so far. *)
Definition arr := (nat * list (option nat))%type.

(** Where the writing thread is: Thread.cpp 16 and Trace.hpp 112-135, with getTimestampTrace (64-78) and getTrace (49-63). *)
Inductive wpc :=
| WNew                                   (* Thread.cpp 16: this->run() *)
| WStart                                 (* Trace.hpp 113 *)
| WWait                                  (* 114-115 *)
| WChk                                   (* 116 *)
| WClr                                   (* 117 *)
| WLog                                   (* 118-127: the members log and name *)
| WT0                                    (* 65-66: cycle, size *)
| WTC (ts : list (option nat))           (* 68-69: the loop after a wrap around *)
| WTN                                    (* 73: new timestamp_t[index] *)
| WTL (ts : arr)                         (* 74-75: the loop without wrap around *)
| WV0 (ts : arr)                         (* 50-52 *)
| WVC (ts : arr) (vs : list (option nat))  (* 53-54 *)
| WVS (ts : arr) (len : nat)             (* 58: size = index *)
| WVL (ts vs : arr)                      (* 59-60 *)
| WOut (ts vs : arr) (out : list (option nat * option nat)) (* 130-131 *)
| WFin (out : list (option nat * option nat)) (* 132-133: the member log *)
| WEnd.                                  (* the thread has ended *)

(** [vbuf], [tbuf], [index], [cyc], [size], [en] (running): members of the trace, Trace.hpp 86-91; [cnt]: samples taken;
    [cp], [wp], [tp]: places; [running], [go]: members of the writer, Trace.hpp 111; [dead]: the body of ~TraceWriter was run,
    [gone]: its members are destroyed and the base class destructor waits; [begun]: copies begun; [files]: files written. *)
Record st := {
  vbuf : nat -> option nat; tbuf : nat -> option nat; index : nat; cyc : bool; size : nat; en : bool; cnt : nat; tp : tpc;
  cp : cpc; wp : wpc; running : bool; go : bool; dead : bool; gone : bool; begun : nat;
  files : list (list (option nat * option nat)) }.

Definition w_wp x s := {| vbuf := vbuf s; tbuf := tbuf s; index := index s; cyc := cyc s; size := size s; en := en s; cnt := cnt s;
  tp := tp s; cp := cp s; wp := x; running := running s; go := go s; dead := dead s; gone := gone s; begun := begun s; files := files s |}.
Definition w_size x s := {| vbuf := vbuf s; tbuf := tbuf s; index := index s; cyc := cyc s; size := x; en := en s; cnt := cnt s;
  tp := tp s; cp := cp s; wp := wp s; running := running s; go := go s; dead := dead s; gone := gone s; begun := begun s; files := files s |}.
Definition w_flags r g s := {| vbuf := vbuf s; tbuf := tbuf s; index := index s; cyc := cyc s; size := size s; en := en s; cnt := cnt s;
  tp := tp s; cp := cp s; wp := wp s; running := r; go := g; dead := dead s; gone := gone s; begun := begun s; files := files s |}.
Definition w_cp x s := {| vbuf := vbuf s; tbuf := tbuf s; index := index s; cyc := cyc s; size := size s; en := en s; cnt := cnt s;
  tp := tp s; cp := x; wp := wp s; running := running s; go := go s; dead := dead s; gone := gone s; begun := begun s; files := files s |}.
Definition w_dead d g s := {| vbuf := vbuf s; tbuf := tbuf s; index := index s; cyc := cyc s; size := size s; en := en s; cnt := cnt s;
  tp := tp s; cp := cp s; wp := wp s; running := running s; go := go s; dead := d; gone := g; begun := begun s; files := files s |}.
Definition w_begun x s := {| vbuf := vbuf s; tbuf := tbuf s; index := index s; cyc := cyc s; size := size s; en := en s; cnt := cnt s;
  tp := tp s; cp := cp s; wp := wp s; running := running s; go := go s; dead := dead s; gone := gone s; begun := x; files := files s |}.
Definition w_files x s := {| vbuf := vbuf s; tbuf := tbuf s; index := index s; cyc := cyc s; size := size s; en := en s; cnt := cnt s;
  tp := tp s; cp := cp s; wp := wp s; running := running s; go := go s; dead := dead s; gone := gone s; begun := begun s; files := x |}.
Definition w_trace v t i c n p s := {| vbuf := v; tbuf := t; index := i; cyc := c; size := size s; en := en s; cnt := n;
  tp := p; cp := cp s; wp := wp s; running := running s; go := go s; dead := dead s; gone := gone s; begun := begun s; files := files s |}.
Definition w_en x s := {| vbuf := vbuf s; tbuf := tbuf s; index := index s; cyc := cyc s; size := size s; en := x; cnt := cnt s;
  tp := tp s; cp := cp s; wp := wp s; running := running s; go := go s; dead := dead s; gone := gone s; begun := begun s; files := files s |}.

(** Trace.hpp 20-23 and 87-89; the members of the writer and [size] are not yet initialized: any values [r], [g], [z]. *)
Definition init (r g : bool) (z : nat) : st :=
  {| vbuf := fun _ => None; tbuf := fun _ => None; index := 0; cyc := false; size := z; en := false; cnt := 0; tp := TRun;
     cp := CBase; wp := WNew; running := r; go := g; dead := false; gone := false; begun := 0; files := [] |}.

(** [LTd] the time domain; [LEn] Trace::enable (80); [LCtor] the construction; [LReq] write (108); [LW] the writing thread;
    [LDead] the body of ~TraceWriter (107); [LGone] the destruction of its members. *)
Inductive label := LTd | LEn | LCtor | LReq | LW | LDead | LGone.

(** Trace::run, Trace.hpp 38-48; [N] is maxBufLen. *)
Definition td (N : nat) (s : st) : outcome st :=
  match tp s with
  | TRun => if en s then
      if index s <? N then Ok (w_trace (upd (vbuf s) (index s) (Some (cnt s))) (tbuf s) (index s) (cyc s) (cnt s) TStamp s) else UB
      else Ok s
  | TStamp => if index s <? N then Ok (w_trace (vbuf s) (upd (tbuf s) (index s) (Some (cnt s))) (index s) (cyc s) (cnt s) TInc s) else UB
  | TInc => Ok (w_trace (vbuf s) (tbuf s) (S (index s)) (cyc s) (cnt s) TWrap s)
  | TWrap => if index s =? N then Ok (w_trace (vbuf s) (tbuf s) 0 (cyc s) (cnt s) TCyc s)
             else Ok (w_trace (vbuf s) (tbuf s) (index s) (cyc s) (S (cnt s)) TRun s)
  | TCyc => Ok (w_trace (vbuf s) (tbuf s) (index s) true (S (cnt s)) TRun s)
  end.

(** The initializers of Trace.hpp 111, after the base class. *)
Definition ctor (s : st) : st :=
  match cp s with
  | CBase => w_cp CRun s
  | CRun => w_cp CGo (w_flags false (go s) s)
  | CGo => w_cp CDone (w_flags (running s) false s)
  | CDone => s
  end.

(** The virtual function called by Thread.cpp 16 is TraceWriter::run while the object is a TraceWriter, else Thread::run. *)
Definition is_writer (s : st) : bool := match cp s with CBase => false | _ => negb (gone s) end.

(** The members trace, name and log (Trace.hpp 136-138) are initialized after go; simplification: together with it. *)
Definition constructed (s : st) : bool := match cp s with CDone => true | _ => false end.

(** Reads of [ts] at [i]: outside the array undefined; not yet written: indeterminate. *)
Definition rd (a : arr) (i : nat) : option nat := nth i (snd a) None.

(** The writing thread: Trace.hpp 112-135. *)
Definition writer (N : nat) (s : st) : outcome st :=
  match wp s with
  | WNew => Ok (w_wp (if is_writer s then WStart else WEnd) s)
  | WStart => Ok (w_wp WWait (w_flags true (go s) s))
  | WWait => Ok (if running s && negb (go s) then s else w_wp WChk s)
  | WChk => Ok (w_wp (if running s then WClr else WEnd) s)
  | WClr => Ok (w_wp WLog (w_flags (running s) false s))
  | WLog => if gone s || negb (constructed s) then UB else Ok (w_wp WT0 s)
  | WT0 => Ok (w_begun (S (begun s)) (if cyc s then w_wp (WTC []) (w_size N s) else w_wp WTN (w_size (index s) s)))
  | WTC ts => if length ts <? N then Ok (w_wp (WTC (ts ++ [tbuf s ((length ts + index s) mod N)])) s) else Ok (w_wp (WV0 (N, ts)) s)
  | WTN => Ok (w_wp (WTL (index s, [])) s)
  | WTL (len, ts) => if length ts <? index s then
      if length ts <? len then Ok (w_wp (WTL (len, ts ++ [tbuf s (length ts)])) s) else UB
      else Ok (w_wp (WV0 (len, ts)) s)
  | WV0 ts => Ok (if cyc s then w_wp (WVC ts []) (w_size N s) else w_wp (WVS ts (index s)) s)
  | WVC ts vs => if length vs <? N then Ok (w_wp (WVC ts (vs ++ [vbuf s ((length vs + index s) mod N)])) s)
      else Ok (w_wp (WOut ts (N, vs) []) s)
  | WVS ts len => Ok (w_wp (WVL ts (len, [])) (w_size (index s) s))
  | WVL ts (len, vs) => if length vs <? index s then
      if length vs <? len then Ok (w_wp (WVL ts (len, vs ++ [vbuf s (length vs)])) s) else UB
      else Ok (w_wp (WOut ts (len, vs) []) s)
  | WOut ts vs out => if length out <? size s then
      if (length out <? fst ts) && (length out <? fst vs)
      then Ok (w_wp (WOut ts vs (out ++ [(rd ts (length out), rd vs (length out))])) s) else UB
      else Ok (w_wp (WFin out) s)
  | WFin out => if gone s then UB else Ok (w_wp WWait (w_files (files s ++ [out]) s))
  | WEnd => Ok s
  end.

(** One access.  Requests and the destruction need a constructed writer; what cannot happen leaves the state as it is. *)
Definition step (N : nat) (l : label) (s : st) : outcome st :=
  match l with
  | LTd => td N s
  | LEn => Ok (w_en true s)
  | LCtor => Ok (ctor s)
  | LReq => Ok (if constructed s && negb (dead s) then w_flags (running s) true s else s)
  | LW => writer N s
  | LDead => Ok (if constructed s && negb (dead s) then w_dead true (gone s) (w_flags false (go s) s) else s)
  | LGone => Ok (if dead s then w_dead true true s else s)
  end.

Fixpoint steps (N : nat) (ls : list label) (s : st) : outcome st :=
  match ls with [] => Ok s | l :: r => bind (step N l s) (steps N r) end.

(** ** The two traces of TraceTest.cpp.

    Here a call of run, of enable and the reading at the end are single steps (they are by different threads, and the reading is
    after the end of the time domain).  [c1], [c2]: all samples taken by trace1 and trace2 since the start, oldest first;
    [nrun]: runs of the time domain; [half]: trace1 has run, trace2 not yet (TraceTest.cpp 40-41). *)
Record two := { c1 : list nat; c2 : list nat; e1 : bool; e2 : bool; nrun : nat; half : bool }.
Definition two0 : two := {| c1 := []; c2 := []; e1 := false; e2 := false; nrun := 0; half := false |}.

(** [MTd] one block of the time domain; [MEn] trace1.enable, then trace2.enable (TraceTest.cpp 62-63). *)
Inductive mlabel := MTd | MEn.
Definition mstep (l : mlabel) (s : two) : two :=
  match l with
  | MTd => if half s
      then {| c1 := c1 s; c2 := if e2 s then c2 s ++ [nrun s] else c2 s; e1 := e1 s; e2 := e2 s; nrun := S (nrun s); half := false |}
      else {| c1 := if e1 s then c1 s ++ [nrun s] else c1 s; c2 := c2 s; e1 := e1 s; e2 := e2 s; nrun := nrun s; half := true |}
  | MEn => if e1 s then {| c1 := c1 s; c2 := c2 s; e1 := true; e2 := true; nrun := nrun s; half := half s |}
      else {| c1 := c1 s; c2 := c2 s; e1 := true; e2 := e2 s; nrun := nrun s; half := half s |}
  end.
Definition msteps (ls : list mlabel) (s : two) : two := fold_left (fun s l => mstep l s) ls s.

(** What getTrace returns (Trace.hpp 49-63): the last [N] samples, or all of them if there are fewer. *)
Definition kept (N : nat) (c : list nat) : list nat := skipn (length c - N) c.

(** TraceTest.cpp 113-116: the lines of the file, a sample of each trace; [UB]: a read behind the end of buf2. *)
Fixpoint lines (a b : list nat) : outcome (list (nat * nat)) :=
  match a, b with
  | [], _ => Ok []
  | _ :: _, [] => UB
  | x :: a', y :: b' => bind (lines a' b') (fun r => Ok ((x, y) :: r))
  end.
Definition report (N : nat) (s : two) : outcome (list (nat * nat)) := lines (kept N (c1 s)) (kept N (c2 s)).
