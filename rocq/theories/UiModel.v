(** Model of the command loop of SequencerUI and of SharedMemory. *)
From Coq Require Import Ascii.
From Verif Require Import Prelude.
Open Scope nat_scope.

(** ** SequencerUI.cpp 63-99: one client connection
    Every call of read() (77) for one byte returns a character, end of file (0) or an error (negative); before it the time
    out is tested (73).  [late] tells whether the time out has expired at this call. *)
Inductive rd := RChar (c : ascii) | REof | RErr.
Record call := { late : bool; res : rd }.
(** The commands of the sequencer, 85-97. *)
Inductive cmd := Step | Restart | Block_.
Definition decode (c : ascii) : list cmd :=
  if Ascii.eqb c "s" then [Block_; Step] else if Ascii.eqb c "c" then [Restart] else if Ascii.eqb c "b" then [Block_] else [].
(** Inner loop 72-83: the local variable ch (None: not initialised), whether still connected, and the remaining calls.
    After an end of file count stays 1 and the loop goes on; after an error count is 2 and connected false.
    None: the script of calls is exhausted, the thread is blocked in read. *)
Fixpoint read_cmd (ch : option ascii) (calls : list call) : option (option ascii * bool * list call) :=
  match calls with
  | [] => None
  | c :: calls =>
    match res c with
    | RChar x => Some (Some x, negb (late c), calls)
    | REof => if late c then Some (ch, false, calls) else read_cmd ch calls
    | RErr => Some (ch, false, calls)
    end
  end.
(** Outer loop 67-99 from a state with connected = true: the characters acted upon, in order, and whether the loop was left;
    the switch on an uninitialised ch (85) is undefined behaviour.  Every call consumes at least one element. *)
Fixpoint ui_loop (fuel : nat) (ch : option ascii) (calls : list call) : outcome (list ascii * bool) :=
  match fuel with
  | O => Ok ([], false)
  | S fuel =>
    match read_cmd ch calls with
    | None => Ok ([], false)
    | Some (None, _, _) => UB
    | Some (Some c, connected, rest) =>
      if connected then omap (fun r => (c :: fst r, snd r)) (ui_loop fuel (Some c) rest)
      else Ok ([c], true)
    end
  end.
Definition ui_client (calls : list call) : outcome (list ascii * bool) := ui_loop (S (length calls)) None calls.

(** ** SharedMemory.cpp 12-53
    The resources of the process: open descriptors and mapped addresses (fresh numbers).  [ok] tells whether shm_open,
    ftruncate and mmap succeed; munmap fails for the error value (address None). *)
Record shm := { sh_next : nat; sh_fds : list nat; sh_maps : list nat; sh_mem : option nat }.
Definition shm0 : shm := {| sh_next := 1; sh_fds := []; sh_maps := []; sh_mem := None |}.
(** 12-18 and 32-45: both open the object and map it again. *)
Definition shm_open_map (ok : bool) (s : shm) : shm :=
  if ok then {| sh_next := S (sh_next s); sh_fds := sh_next s :: sh_fds s; sh_maps := sh_next s :: sh_maps s; sh_mem := Some (sh_next s) |}
  else s.
Definition shm_construct (ok : bool) : shm := shm_open_map ok shm0.
Definition shm_initialize (ok : bool) (s : shm) : shm := shm_open_map ok s.
(** 47-53, also the destructor (20-22): the descriptor is not closed, memory keeps its value. *)
Definition shm_destroy (s : shm) : shm :=
  match sh_mem s with
  | None => s
  | Some a => {| sh_next := sh_next s; sh_fds := sh_fds s; sh_maps := remove Nat.eq_dec a (sh_maps s); sh_mem := sh_mem s |}
  end.
