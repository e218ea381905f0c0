(** Specification of frames. *)
From Verif Require Import Prelude SockModel.

(** The first [k] frames of length [n] of a byte stream. *)
Fixpoint frames (k n : nat) (s : list byte) : list (list byte) := match k with 0 => [] | S k => firstn n s :: frames k n (skipn n s) end.
Definition whole (f : list byte) : cells := map Some f.
(** Events of a connection that stays up: data in pieces of any size, always in time. *)
Definition delivers (e : event) : Prop := ev_late e = false /\ exists size, ev_answer e = Got size /\ 0 < size.
