(** Threads of the input devices gamepad, mouse and space navigator; their blocks; the raw byte stream of the space
    navigator; the semaphore. *)
From Verif Require Import Prelude Num KeyModel.
Open Scope Z_scope.

(** ** Life cycle of the thread: XBox.cpp 12-46 and 78-83, Mouse.cpp 12-38 and 72-77, SpaceNavigator.cpp 13-29 and 91-98,
    Thread.cpp 9-19.  The base class Thread starts the thread, which calls the virtual function run(): until the constructor
    of the derived class begins, this is Thread::run (Thread.cpp 36), which returns at once.  A data race on a member is not
    counted as undefined behaviour here, reading an uninitialised one is. *)
(** [Gamepad] and [SpaceNav] block in read; [Mouse] has opened its device with O_NONBLOCK. *)
Inductive device := Gamepad | Mouse | SpaceNav.
Definition blocking (d : device) : bool := match d with Mouse => false | _ => true end.
(** The thread which owns the device.  [MDerived]: the constructor of the derived class begins; [MOpen] open(); [MInit] the
    rest of the constructor; [MUse] the device is in use; [MStop], [MJoin], [MClose]: the destructor. *)
Inductive mact := MDerived | MOpen | MInit | MUse | MStop | MJoin | MClose.
Definition life : list mact := [MDerived; MOpen; MInit; MUse; MStop; MJoin; MClose].
(** The device thread.  [TCall] calls this->run(); [TSet] running = true; [TFile] tests fd or file; [TLoop] tests running;
    [TRead] reads an event; [TEnd] has returned. *)
Inductive tpc := TCall | TSet | TFile | TLoop | TRead | TEnd.
(** [d_file]: None as long as it is not assigned, then whether the device could be opened. *)
Record dstate := { d_derived : bool; d_file : option bool; d_running : bool; d_avail : nat; d_done : nat; d_ub : bool; d_pc : tpc; d_main : list mact }.
(** Before the constructor; the value of running is not used before it is assigned. *)
Definition dstate0 : dstate :=
  {| d_derived := false; d_file := None; d_running := false; d_avail := 0; d_done := 0; d_ub := false; d_pc := TCall; d_main := life |}.
Inductive dop := DMain | DThread | DEvent.   (* DEvent: the user produces an event *)
(** [ok]: the device can be opened.  fclose(NULL) is undefined (SpaceNavigator.cpp 39), ::close(-1) is not. *)
Definition dstep (dv : device) (ok : bool) (s : dstate) (o : dop) : dstate :=
  let mk dr fl rn av dn ub pc mn := {| d_derived := dr; d_file := fl; d_running := rn; d_avail := av; d_done := dn; d_ub := ub; d_pc := pc; d_main := mn |} in
  match o with
  | DEvent => mk (d_derived s) (d_file s) (d_running s) (S (d_avail s)) (d_done s) (d_ub s) (d_pc s) (d_main s)
  | DThread =>
    let go pc := mk (d_derived s) (d_file s) (d_running s) (d_avail s) (d_done s) (d_ub s) pc (d_main s) in
    match d_pc s with
    | TCall => if d_derived s then go TSet else go TEnd
    | TSet => mk (d_derived s) (d_file s) true (d_avail s) (d_done s) (d_ub s) TFile (d_main s)
    | TFile => match d_file s with
      | None => mk (d_derived s) (d_file s) (d_running s) (d_avail s) (d_done s) true TEnd (d_main s)
      | Some true => go TLoop
      | Some false => go TEnd
      end
    | TLoop => if d_running s then go TRead else go TEnd
    | TRead => match d_avail s with
      | S n => mk (d_derived s) (d_file s) (d_running s) n (S (d_done s)) (d_ub s) TLoop (d_main s)
      | O => if blocking dv then s else go TLoop
      end
    | TEnd => s
    end
  | DMain => match d_main s with
    | [] => s
    | a :: m =>
      match a with
      | MDerived => mk true (d_file s) (d_running s) (d_avail s) (d_done s) (d_ub s) (d_pc s) m
      | MOpen => mk (d_derived s) (Some ok) (d_running s) (d_avail s) (d_done s) (d_ub s) (d_pc s) m
      | MInit | MUse => mk (d_derived s) (d_file s) (d_running s) (d_avail s) (d_done s) (d_ub s) (d_pc s) m
      | MStop => mk (d_derived s) (d_file s) false (d_avail s) (d_done s) (d_ub s) (d_pc s) m
      | MJoin => match d_pc s with
        | TEnd => mk (d_derived s) (d_file s) (d_running s) (d_avail s) (d_done s) (d_ub s) (d_pc s) m
        | _ => s
        end
      | MClose => mk (d_derived s) (d_file s) (d_running s) (d_avail s) (d_done s)
                     (d_ub s || match dv, d_file s with SpaceNav, Some false => true | _, _ => false end) (d_pc s) m
      end
    end
  end.
Definition drun (dv : device) (ok : bool) (s : dstate) (os : list dop) : dstate := fold_left (dstep dv ok) os s.

(** ** XBoxInput.cpp 17-27, 52-55: the values of the axes are output unchanged; the factor is stored and never used. *)
Section XBoxBlock.
Context (N : num).
Definition set_speed (old v : N) : N :=
  if negb (nltb N v (nofZ N 0)) && nltb N v (nofZ N 5) then v else old.
Definition xbox_out (speed : N) (axes : list N) : list N := axes.
End XBoxBlock.

(** ** SpaceNavigatorInput.cpp 14-32 with the constructor SpaceNavigator.cpp 20-21: the axes and buttons are initialised, the
    rotations are not (None). *)
Record navstate := { n_axis : list (option Z); n_rot : list (option Z); n_but : list (option bool) }.
Definition nav0 : navstate := {| n_axis := [Some 0; Some 0; Some 0]; n_rot := [None; None; None]; n_but := [Some false; Some false] |}.
(** One event (SpaceNavigator.cpp 138-202): type 1 button (codes 256, 257), types 2 and 3 position. *)
Fixpoint set_at {A} (l : list A) (k : nat) (v : A) : list A :=
  match l, k with [], _ => [] | _ :: l, O => v :: l | x :: l, S k => x :: set_at l k v end.
Definition nav_event (s : navstate) (type code value : Z) : navstate :=
  if type =? 1 then
    if (code =? 256) || (code =? 257)
    then {| n_axis := n_axis s; n_rot := n_rot s; n_but := set_at (n_but s) (Z.to_nat (code - 256)) (Some (negb (value =? 0))) |} else s
  else if (type =? 2) || (type =? 3) then
    if (0 <=? code) && (code <=? 2) then {| n_axis := set_at (n_axis s) (Z.to_nat code) (Some value); n_rot := n_rot s; n_but := n_but s |}
    else if (3 <=? code) && (code <=? 5) then {| n_axis := n_axis s; n_rot := set_at (n_rot s) (Z.to_nat (code - 3)) (Some value); n_but := n_but s |}
    else s
  else s.
Definition nav_events (s : navstate) (es : list (Z * Z * Z)) : navstate :=
  fold_left (fun s e => nav_event s (fst (fst e)) (snd (fst e)) (snd e)) es s.

(** ** Raw stream, SpaceNavigator.cpp 96-135: the loop on the bytes available; with an incomplete packet the thread waits in
    fread.  The decoding of one packet is [sn_packet]. *)
Fixpoint nav_raw (fuel : nat) (s : space) (bytes : list Z) : space :=
  match fuel with
  | O => s
  | S fuel =>
    match bytes with
    | [] => s
    | h :: rest =>
      if h =? 1 then if (13 <=? length rest)%nat then nav_raw fuel (sn_packet s (h :: firstn 13 rest)) (skipn 13 rest) else s
      else if h =? 3 then if (2 <=? length rest)%nat then nav_raw fuel (sn_packet s (h :: firstn 2 rest)) (skipn 2 rest) else s
      else nav_raw fuel s rest
    end
  end.
(** Every round consumes at least one byte. *)
Definition nav_read (s : space) (bytes : list Z) : space := nav_raw (length bytes) s bytes.

(** ** Semaphore.cpp 6-29.  The threads: [s_sleep] in condvar.wait or wait_for, [s_wake] woken (or timed out, or woken for no
    reason) and about to test the condition with the lock, [s_note] in post() between the unlock and notify_one.
    The numbers of finished calls: [s_posts], [s_taken] successful waits, [s_fails] timed out.  Simplification: the counter does
    not overflow. *)
Record sem := { s_count : Z; s_sleep : nat; s_wake : nat; s_note : nat; s_posts : Z; s_taken : Z; s_fails : Z }.
Definition sem_new (v : Z) : sem := {| s_count := v; s_sleep := 0; s_wake := 0; s_note := 0; s_posts := 0; s_taken := 0; s_fails := 0 |}.
Inductive sop :=
| SPost      (* 23-27: count incremented *)
| SNotify    (* 28 *)
| SEnter     (* a wait begins: lock, test of the condition *)
| STest      (* a woken thread tests the condition and sleeps again when it is false *)
| SLeave     (* a woken thread whose time is over tests the condition and returns *)
| SWake.     (* spurious wake up or time out of a sleeping thread *)
Definition sem_step (s : sem) (o : sop) : option sem :=
  let mk c sl wk nt p t f := Some {| s_count := c; s_sleep := sl; s_wake := wk; s_note := nt; s_posts := p; s_taken := t; s_fails := f |} in
  match o with
  | SPost => mk (s_count s + 1) (s_sleep s) (s_wake s) (S (s_note s)) (s_posts s + 1) (s_taken s) (s_fails s)
  | SNotify => match s_note s with
    | O => None
    | S n => match s_sleep s with
      | O => mk (s_count s) O (s_wake s) n (s_posts s) (s_taken s) (s_fails s)
      | S k => mk (s_count s) k (S (s_wake s)) n (s_posts s) (s_taken s) (s_fails s)
      end
    end
  | SEnter => if 0 <? s_count s then mk (s_count s - 1) (s_sleep s) (s_wake s) (s_note s) (s_posts s) (s_taken s + 1) (s_fails s)
              else mk (s_count s) (S (s_sleep s)) (s_wake s) (s_note s) (s_posts s) (s_taken s) (s_fails s)
  | STest => match s_wake s with
    | O => None
    | S n => if 0 <? s_count s then mk (s_count s - 1) (s_sleep s) n (s_note s) (s_posts s) (s_taken s + 1) (s_fails s)
             else mk (s_count s) (S (s_sleep s)) n (s_note s) (s_posts s) (s_taken s) (s_fails s)
    end
  | SLeave => match s_wake s with
    | O => None
    | S n => if 0 <? s_count s then mk (s_count s - 1) (s_sleep s) n (s_note s) (s_posts s) (s_taken s + 1) (s_fails s)
             else mk (s_count s) (s_sleep s) n (s_note s) (s_posts s) (s_taken s) (s_fails s + 1)
    end
  | SWake => match s_sleep s with
    | O => None
    | S k => mk (s_count s) k (S (s_wake s)) (s_note s) (s_posts s) (s_taken s) (s_fails s)
    end
  end.
Fixpoint sem_run (s : sem) (os : list sop) : option sem :=
  match os with [] => Some s | o :: os => match sem_step s o with None => None | Some s => sem_run s os end end.
