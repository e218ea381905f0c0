(** What C332-C337 say about the traces, independent of the steps of the model. *)
From Verif Require Import Prelude TracModel.

(** Everything that can be reached, with any order of the threads and any values of uninitialized members. *)
Definition reach (N : nat) (s : st) : Prop := exists r g z ls, steps N ls (init r g z) = Ok s.

(** A line of the file holds a value with the time stamp of this value. *)
Definition matched (f : list (option nat * option nat)) : Prop := forall a b, In (a, b) f -> a = b /\ a <> None.

(** The file with the last samples, at most [N], oldest first, of [c] samples taken. *)
Definition newest (N c : nat) : list (option nat * option nat) :=
  map (fun k => (Some k, Some k)) (seq (c - Nat.min c N) (Nat.min c N)).

(** Places where the thread is not copying. *)
Definition before_copy (w : wpc) : Prop := match w with WNew | WStart | WWait | WChk | WClr | WLog | WT0 | WEnd => True | _ => False end.

(** The thread has called TraceWriter::run and has set running. *)
Definition under_way (w : wpc) : Prop := match w with WNew | WStart | WEnd => False | _ => True end.

(** The two traces of TraceTest. *)
Definition mreach (s : two) : Prop := exists ls, s = msteps ls two0.
