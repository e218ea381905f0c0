(** Model of the text user interface of the sequencer,
    [/repo/src/ui/CursesUI.cpp] and [/repo/includes/eeros/ui/CursesUI.hpp].

    Simplifications: the calls into the curses library are kept only as far as
    they determine the row or the text that is written; colours, columns and
    the terminal itself are left out.  Characters are their codes. *)
From Coq Require Import List ZArith Lia Bool.
From Verif Require Import Prelude.
Import ListNotations.
Open Scope Z_scope.

(** * The thread of the user interface *)

(** CursesUI.hpp 24: [enum State { idle, active, stopping, stopped }]. *)
Inductive ui_state := UIdle | UActive | UStopping | UStopped.

Definition ui_eqb (a b : ui_state) : bool :=
  match a, b with
  | UIdle, UIdle | UActive, UActive
  | UStopping, UStopping | UStopped, UStopped => true
  | _, _ => false
  end.

(** Where the thread is, CursesUI.cpp 218-272: not yet in [run] (the thread is
    started by the constructor of the base class, Thread.cpp 9-19), in the
    idle loop (lines 223-225), in the key loop (lines 230-268), after the key
    loop (line 271), returned.  A thread that calls [run] before the
    constructor of the derived class has begun runs [Thread::run] instead
    (Thread.cpp 35), which returns at once. *)
Inductive ui_pc := PStart | PIdle | PKeys | PLeave | PEnd.

Record ui := mkUi {
  ui_st : ui_state;      (* CursesUI.hpp 42 *)
  ui_at : ui_pc;
  ui_built : bool;       (* the derived constructor has begun *)
  ui_init : nat;         (* calls of initScreen, CursesUI.cpp 192-216 *)
  ui_read : nat          (* calls of getch, CursesUI.cpp 231 *)
}.

(** Events: the constructor of the derived class begins (CursesUI.cpp 23),
    [dispay()] (34-39), [exit()] (41-46; also called by the destructor, 30-32),
    and one step of the thread. *)
Inductive ui_ev := EBuilt | EDisplay | EExit | EThread.

(** One event.  CursesUI.cpp 23, 34-46 and 218-272. *)
Definition ui_step (s : ui) (e : ui_ev) : ui :=
  match e with
  | EBuilt =>
      if ui_built s then s
      else mkUi UIdle (ui_at s) true (ui_init s) (ui_read s)
  | EDisplay => mkUi UActive (ui_at s) (ui_built s) (ui_init s) (ui_read s)
  | EExit => mkUi UStopping (ui_at s) (ui_built s) (ui_init s) (ui_read s)
  | EThread =>
      match ui_at s with
      | PStart =>
          if ui_built s then mkUi (ui_st s) PIdle true (ui_init s) (ui_read s)
          else mkUi (ui_st s) PEnd false (ui_init s) (ui_read s)
      | PIdle =>
          if ui_eqb (ui_st s) UIdle then s
          else mkUi (ui_st s) PKeys (ui_built s) (S (ui_init s)) (ui_read s)
      | PKeys =>
          if negb (ui_eqb (ui_st s) UActive)
          then mkUi (ui_st s) PKeys (ui_built s) (ui_init s) (S (ui_read s))
          else mkUi (ui_st s) PLeave (ui_built s) (ui_init s) (ui_read s)
      | PLeave => mkUi UStopped PEnd (ui_built s) (ui_init s) (ui_read s)
      | PEnd => s
      end
  end.

Definition ui_run (s : ui) (es : list ui_ev) : ui := fold_left ui_step es s.

(** The thread object just created by the base class constructor,
    Thread.cpp 9-19; [state] is not yet written (taken as idle). *)
Definition ui_new : ui := mkUi UIdle PStart false 0 0.

(** * Instances, CursesUI.cpp 17, 23-32 *)

(** The static counter (an [unsigned int]) and the number of existing
    objects. *)
Record insts := mkInsts { i_count : Z; i_live : nat }.

Inductive inst_op := INew | IDelete.

(** CursesUI.cpp 23-32: the counter is incremented first, a value above one
    throws and leaves no object; the destructor does not touch the counter. *)
Definition inst_step (s : insts) (o : inst_op) : insts :=
  match o with
  | INew =>
      let c := (i_count s + 1) mod 2 ^ 32 in
      if 1 <? c then mkInsts c (i_live s) else mkInsts c (S (i_live s))
  | IDelete => mkInsts (i_count s) (pred (i_live s))
  end.

Definition inst_run (s : insts) (os : list inst_op) : insts :=
  fold_left inst_step os s.

Definition inst_init : insts := mkInsts 0 0.

(** * Messages, CursesUI.cpp 290-296 *)

(** CursesUI.hpp 15. *)
Definition MESSAGE_LINES : nat := 6.

(** [addMessage]: push to the back, pop the front above five entries. *)
Definition add_message {A} (l : list A) (m : A) : list A :=
  let l' := l ++ [m] in
  if Nat.ltb (MESSAGE_LINES - 1) (length l') then tl l' else l'.

Definition add_messages {A} (l ms : list A) : list A :=
  fold_left add_message ms l.

(** [printMessage] passes the message as the format of [mvprintw]
    (CursesUI.cpp 97-100): "%%" prints one percent sign, any other conversion
    reads an argument that was not passed (or is no valid conversion), which is
    undefined. *)
Fixpoint mvprintw (fmt : list Z) : outcome (list Z) :=
  match fmt with
  | [] => Ok []
  | c :: r =>
      if c =? 37 then
        match r with
        | d :: r' =>
            if d =? 37 then omap (cons 37) (mvprintw r') else UB
        | [] => UB
        end
      else omap (cons c) (mvprintw r)
  end.

(** [printMessageList], CursesUI.cpp 102-108: message number, text. *)
Fixpoint print_messages (l : list (list Z)) (i : nat)
  : outcome (list (nat * list Z)) :=
  match l with
  | [] => Ok []
  | m :: r =>
      bind (mvprintw m) (fun t =>
      omap (cons (i, t)) (print_messages r (S i)))
  end.

(** * promptForInt, CursesUI.cpp 298-310 *)

(** [atoi] of the C library: white space, an optional sign, digits up to the
    first other character. *)
Definition is_space (c : Z) : bool :=
  (c =? 32) || ((9 <=? c) && (c <=? 13)).
Definition is_digit (c : Z) : bool := (48 <=? c) && (c <=? 57).

Fixpoint atoi_digits (acc : Z) (l : list Z) : Z :=
  match l with
  | c :: r => if is_digit c then atoi_digits (10 * acc + (c - 48)) r else acc
  | [] => acc
  end.

Definition atoi_signed (l : list Z) : Z :=
  match l with
  | c :: r =>
      if c =? 45 then - atoi_digits 0 r
      else if c =? 43 then atoi_digits 0 r
      else atoi_digits 0 l
  | [] => 0
  end.

Fixpoint atoi (l : list Z) : Z :=
  match l with
  | c :: r => if is_space c then atoi r else atoi_signed l
  | [] => 0
  end.

(** The line typed by the user is stored with its terminator in
    [char input\[10\]] without any limit (line 304), then converted. *)
Definition prompt_for_int (line : list Z) : outcome Z :=
  if Nat.ltb 9 (length line) then UB else Ok (atoi line).

(** * Rows of the screen, CursesUI.cpp 48-180 and 210-215 *)

(** [unsigned int] arithmetic, and its conversion to the [int] row passed to
    [move] and [mvprintw]. *)
Definition u32 (x : Z) : Z := x mod 2 ^ 32.
Definition row (x : Z) : Z :=
  let u := u32 x in if u <? 2 ^ 31 then u else u - 2 ^ 32.

Section Rows.
Variable lines : Z.      (* LINES *)

(** CursesUI.cpp 210-215 with the constants of CursesUI.hpp 11-15. *)
Definition header_start : Z := 0.
Definition footer_start : Z := u32 (lines - 2).
Definition sequence_start : Z := 3 + 1.
Definition command_start : Z := u32 (footer_start - 6 / 2 - 1).
Definition status_start : Z := u32 (command_start - 4).
Definition message_start : Z := u32 (status_start - 6).

Definition offsets (n : nat) : list Z := map Z.of_nat (seq 0 n).

(** Lines 48-62. *)
Definition header_rows : list Z :=
  map (fun j => row (header_start + j)) (offsets 3).
(** Lines 86-95, [n] sequences. *)
Definition sequence_rows (n : nat) : list Z :=
  row sequence_start :: map (fun i => row (sequence_start + 1 + i)) (offsets n).
(** Lines 97-108, [m] messages. *)
Definition message_rows (m : nat) : list Z :=
  row message_start :: map (fun i => row (message_start + 1 + i)) (offsets m).
(** Lines 110-159. *)
Definition status_rows : list Z := [row status_start; row (status_start + 1)].
(** Lines 161-180, commands at the indices 0, 1, 2, 4 and 5. *)
Definition command_rows : list Z :=
  row command_start
  :: map (fun i => row (command_start + 1 + i / 2)) [0; 1; 2; 4; 5].
(** Lines 64-74. *)
Definition footer_rows : list Z := [row (footer_start + 1); lines - 1].

(** [updateScreen], lines 182-190: the areas from the top. *)
Definition areas (n m : nat) : list (list Z) :=
  [header_rows; sequence_rows n; message_rows m; status_rows;
   command_rows; footer_rows].
End Rows.
