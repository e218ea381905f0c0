(** The program examples/system/SubSystemTest.cpp: the time domain with a subsystem and the monitor which logs the last output, in two
    threads, interleaved in any order, one element of a vector per step.  Numbers are integers (in the program multiples of 0.5 which
    doubles represent exactly); [None] is nan, the value of a cleared signal.  The time stamps are left out. *)
From Verif Require Import Prelude.
Local Open Scope Z_scope.

(** Elements of a Vector2 signal. *)
Definition vec := (option Z * option Z)%type.
Definition at_ (v : vec) (e : bool) : option Z := if e then snd v else fst v.
Definition set_ (v : vec) (e : bool) (x : option Z) : vec := if e then (fst v, x) else (x, snd v).

(** SubSystemTest.cpp 46-48 and 33-34: the blocks in the order of their runs. *)
Inductive block := BConst | BGain | BSum | BOut.
(** The monitor: before the first element, between the elements (SubSystemTest.cpp 80-82). *)
Inductive reader := R0 | R1 (x : option Z).

(** [vc], [vg], [vs], [vo]: outputs of c, sub.gain, sub.sum, g; [blk], [el]: the next element to be written by the time domain;
    [runs]: complete runs of the time domain; [log]: logged values, newest first. *)
Record st := { vc : vec; vg : vec; vs : vec; vo : vec; blk : block; el : bool; runs : nat; rd : reader; log : list vec }.
(** SubSystemTest.cpp 43-50. *)
Definition init : st := {| vc := (None, None); vg := (None, None); vs := (None, None); vo := (None, None); blk := BConst; el := false;
  runs := 0; rd := R0; log := [] |}.

(** Arithmetic with nan. *)
Definition times (k : Z) (x : option Z) : option Z := match x with Some a => Some (k * a) | None => None end.
Definition plus (x y : option Z) : option Z := match x, y with Some a, Some b => Some (a + b) | _, _ => None end.

(** TimeDomain.cpp 25-28: the next block, after both elements. *)
Definition next (b : block) : block := match b with BConst => BGain | BGain => BSum | BSum => BOut | BOut => BConst end.
Definition ended (b : block) (e : bool) : nat := match b, e with BOut, true => 1 | _, _ => 0 end.

(** Constant.hpp 49-53 with the value [c] (SubSystemTest.cpp 43), Gain.hpp 107-142 with 3 (25), Sum.hpp 42-62, Gain.hpp 107-142 with 2 (43).
    The inputs of the subsystem lead to the output of c (SubSystemTest.cpp 26-28 and 44), its output is that of the sum (29 and 45). *)
Definition domain (c : Z * Z) (s : st) : st :=
  let e := el s in
  let w a b o p := {| vc := a; vg := b; vs := o; vo := p; blk := if e then next (blk s) else blk s; el := negb e;
    runs := (runs s + ended (blk s) e)%nat; rd := rd s; log := log s |} in
  match blk s with
  | BConst => w (set_ (vc s) e (Some (if e then snd c else fst c))) (vg s) (vs s) (vo s)
  | BGain => w (vc s) (set_ (vg s) e (times 3 (at_ (vc s) e))) (vs s) (vo s)
  | BSum => w (vc s) (vg s) (set_ (vs s) e (plus (plus (Some 0) (at_ (vc s) e)) (at_ (vg s) e))) (vo s)
  | BOut => w (vc s) (vg s) (vs s) (set_ (vo s) e (times 2 (at_ (vs s) e)))
  end.
(** SubSystemTest.cpp 80-82: the signal is read without a lock. *)
Definition monitor (s : st) : st :=
  let w r l := {| vc := vc s; vg := vg s; vs := vs s; vo := vo s; blk := blk s; el := el s; runs := runs s; rd := r; log := l |} in
  match rd s with
  | R0 => w (R1 (at_ (vo s) false)) (log s)
  | R1 x => w R0 ((x, at_ (vo s) true) :: log s)
  end.
(** [true]: the time domain, [false]: the monitor. *)
Definition step (c : Z * Z) (l : bool) (s : st) : st := if l then domain c s else monitor s.
Fixpoint steps (c : Z * Z) (ls : list bool) (s : st) : st := match ls with [] => s | l :: r => steps c r (step c l s) end.
