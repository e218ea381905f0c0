(** What C351-C356 say about CANexample1. *)
From Verif Require Import Prelude Can1Model.
Local Open Scope nat_scope.

Definition reach (s : st) : Prop := exists ls, s = steps ls init.
(** Steps of the main thread and of the sequencer thread; interrupts. *)
Definition is_main (l : label) : bool := match l with LMain => true | _ => false end.
Definition is_seq (l : label) : bool := match l with LSeq _ => true | _ => false end.
Definition is_int (l : label) : bool := match l with LInt => true | _ => false end.
(** The loop of the executor has been left. *)
Definition left_loop (s : st) : Prop := mp s = M4 \/ mp s = M5.
