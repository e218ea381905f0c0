(** Model of the logger, /repo/includes/eeros/logger/{Logger,LogEntry,LogWriter}.hpp and /repo/src/logger/StreamLogWriter.cpp.
    Writers, loggers and entries are numbered in the order of their creation. Inserted values are given by the text
    they print as. Each [out << os.str()] is one step (the standard guarantees this for std::cout up to interleaving of
    characters when several threads insert at once; other streams have no guarantee); the two insertions of
    StreamLogWriter::end (out and fileOut) are separate steps because another thread may run between them.
    SysLogWriter cannot be selected through the interface of Logger and is not modelled. *)
From Coq Require Import Ascii.
From Verif Require Import Prelude ConfModel.
Open Scope nat_scope.

(** LogWriter.hpp 12: levels with descending urgency; comparison of enumerators *)
Inductive level := FATAL | ERROR | WARN | INFO | TRACE.
Definition rank (l : level) : nat := match l with FATAL => 0 | ERROR => 1 | WARN => 2 | INFO => 3 | TRACE => 4 end.

Record writer := { w_visible : level; w_out : text; w_file : text }.
Record logger := { g_writer : option nat; g_cat : Z }. (* None: null pointer *)
Inductive phase := Open | Printed | Closed.
Record entry := { e_writer : nat; e_enable : bool; e_buf : text; e_phase : phase }.
Record sys := { s_writers : list writer; s_loggers : list logger; s_entries : list entry }.
(** Logger.cpp 3: the static logger has no writer *)
Definition sys0 : sys := {| s_writers := []; s_loggers := []; s_entries := [] |}.

Inductive op :=
| SetDefault                                  (* Logger::setDefaultStreamLogger *)
| GetLogger (cat : Z)                         (* Logger::getLogger *)
| Show (g : nat) (l : level)                  (* logger.show(l) *)
| Create (g : nat) (l : level) (stamp : text) (* logger.info() etc.; stamp: the printed time *)
| Insert (e : nat) (t : text)                 (* entry << value *)
| Endl (e : nat)                              (* entry << endl *)
| EndOut (e : nat)                            (* ~LogEntry, first half: out << os.str() *)
| EndFile (e : nat).                          (* second half: fileOut << os.str() *)

Definition esc (s : text) : text := "027"%char :: "["%char :: s.
(** StreamLogWriter.cpp 4-20, 58-65 *)
Definition color (l : level) : text :=
  match l with
  | FATAL => esc ["2"; "2"; ";"; "3"; "5"; "m"]%char
  | ERROR => esc ["2"; "2"; ";"; "3"; "1"; "m"]%char
  | WARN => esc ["2"; "2"; ";"; "3"; "3"; "m"]%char
  | INFO => esc ["2"; "2"; ";"; "3"; "6"; "m"]%char
  | TRACE => esc ["0"; "m"]%char
  end.
Definition letter (l : level) : ascii := match l with FATAL => "F" | ERROR => "E" | WARN => "W" | INFO => "I" | TRACE => "T" end.
(** 40-80, with the time stamp given *)
Definition head (stamp : text) (cat : Z) (l : level) : text :=
  stamp ++ [" "; " "]%char ++
  (if (cat =? 0)%Z then [" "%char] else if ((65 <=? cat) && (cat <=? 90))%Z then [ascii_of_nat (Z.to_nat cat)] else to_string cat) ++
  [" "%char] ++ color l ++ [letter l] ++ [":"; " "; " "]%char.
(** 82-84 *)
Definition foot : text := esc ["0"; "m"]%char ++ [newline].
(** 91-93: three tabulators and seven blanks *)
Definition endl_text : text := newline :: repeat "009"%char 3 ++ repeat " "%char 7.

Fixpoint upd {A} (l : list A) (i : nat) (x : A) : list A :=
  match l, i with [], _ => [] | _ :: l, 0 => x :: l | a :: l, S i => a :: upd l i x end.
Definition upd_entry (e : nat) (x : entry) (s : sys) : sys := {| s_writers := s_writers s; s_loggers := s_loggers s; s_entries := upd (s_entries s) e x |}.
Definition upd_writer (w : nat) (x : writer) (s : sys) : sys := {| s_writers := upd (s_writers s) w x; s_loggers := s_loggers s; s_entries := s_entries s |}.

(** The writer a logger points to. *)
Definition deref (lg : logger) (s : sys) : option (nat * writer) :=
  match g_writer lg with None => None | Some i => match nth_error (s_writers s) i with Some w => Some (i, w) | None => None end end.
Definition step (s : sys) (o : op) : outcome sys :=
  match o with
  (* Logger.hpp 90-92; LogWriter.hpp 22: initially INFO *)
  | SetDefault => Ok {| s_writers := s_writers s ++ [{| w_visible := INFO; w_out := []; w_file := [] |}]; s_loggers := s_loggers s; s_entries := s_entries s |}
  (* 78-81: copy of the static logger, that is of its writer *)
  | GetLogger cat => match length (s_writers s) with
                     | 0 => Ok {| s_writers := s_writers s; s_loggers := s_loggers s ++ [{| g_writer := None; g_cat := cat |}]; s_entries := s_entries s |}
                     | S n => Ok {| s_writers := s_writers s; s_loggers := s_loggers s ++ [{| g_writer := Some n; g_cat := cat |}]; s_entries := s_entries s |}
                     end
  (* 112-114 *)
  | Show g l => match nth_error (s_loggers s) g with
                | None => UB
                | Some lg => match deref lg s with
                             | None => UB
                             | Some (i, w) => Ok (upd_writer i {| w_visible := l; w_out := w_out w; w_file := w_file w |} s)
                             end
                end
  (* 33-69; LogEntry.hpp 28-32 *)
  | Create g l stamp => match nth_error (s_loggers s) g with
                        | None => UB
                        | Some lg => match deref lg s with
                                     | None => UB
                                     | Some (i, w) => let en := rank l <=? rank (w_visible w) in
                                                 Ok {| s_writers := s_writers s; s_loggers := s_loggers s;
                                                       s_entries := s_entries s ++ [{| e_writer := i; e_enable := en; e_buf := if en then head stamp (g_cat lg) l else []; e_phase := Open |}] |}
                                     end
                        end
  (* LogEntry.hpp 53-70: inserted whether enabled or not *)
  | Insert e t => match nth_error (s_entries s) e with
                  | Some x => match e_phase x with
                              | Open => Ok (upd_entry e {| e_writer := e_writer x; e_enable := e_enable x; e_buf := e_buf x ++ t; e_phase := Open |} s)
                              | _ => UB
                              end
                  | None => UB
                  end
  (* 78-81 *)
  | Endl e => match nth_error (s_entries s) e with
              | Some x => match e_phase x with
                          | Open => Ok (upd_entry e {| e_writer := e_writer x; e_enable := e_enable x; e_buf := e_buf x ++ endl_text; e_phase := Open |} s)
                          | _ => UB
                          end
              | None => UB
              end
  (* 42-44; StreamLogWriter.cpp 82-85 *)
  | EndOut e => match nth_error (s_entries s) e with
                | Some x => match e_phase x, nth_error (s_writers s) (e_writer x) with
                            | Open, Some w =>
                                let b := if e_enable x then e_buf x ++ foot else e_buf x in
                                let s1 := upd_entry e {| e_writer := e_writer x; e_enable := e_enable x; e_buf := b; e_phase := Printed |} s in
                                Ok (if e_enable x then upd_writer (e_writer x) {| w_visible := w_visible w; w_out := w_out w ++ b; w_file := w_file w |} s1 else s1)
                            | _, _ => UB
                            end
                | None => UB
                end
  (* 86-87 *)
  | EndFile e => match nth_error (s_entries s) e with
                 | Some x => match e_phase x, nth_error (s_writers s) (e_writer x) with
                             | Printed, Some w =>
                                 let s1 := upd_entry e {| e_writer := e_writer x; e_enable := e_enable x; e_buf := e_buf x; e_phase := Closed |} s in
                                 Ok (if e_enable x then upd_writer (e_writer x) {| w_visible := w_visible w; w_out := w_out w; w_file := w_file w ++ e_buf x |} s1 else s1)
                             | _, _ => UB
                             end
                 | None => UB
                 end
  end.
Fixpoint run (s : sys) (ops : list op) : outcome sys := match ops with [] => Ok s | o :: ops => bind (step s o) (fun s' => run s' ops) end.
